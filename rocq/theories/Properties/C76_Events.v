(** C76: binlog events are taken exactly for what the layout of the binlog says.
    [takes_exactly], [takes_message] are in Spec/Accepts.v, the layouts in Spec/AcceptsEvents.v *)
From Coq Require Import List NArith Lia Bool.
From Verif Require Import Model.Base Model.BytesParser Model.Event Model.EventBody Model.Rows
  Spec.Nums Spec.Accepts Spec.AcceptsEvents Proofs.AcceptsEvents Proofs.AcceptsBodies.
Import ListNotations.
Open Scope N_scope.

(** the headers, the type and the length of an event *)
Theorem C76_header : takes_exactly read_event_header header_layout /\ takes_exactly read_event_header_v1 header_v1_layout /\
  takes_exactly read_event_type type_layout /\ takes_exactly read_event_length length_layout.
Proof. split; [exact accepts_header|]. split; [exact accepts_header_v1|]. split; [exact accepts_type|exact accepts_length]. Qed.
Print Assumptions C76_header.
(** the version of a file *)
Theorem C76_version : tells_version read_binlog_version.
Proof. exact accepts_version. Qed.
Print Assumptions C76_version.
(** the first event of a file *)
Theorem C76_first_event : takes_exactly read_start_data start_layout /\ takes_message read_fde fde_layout.
Proof. split; [exact accepts_start|exact accepts_fde]. Qed.
Print Assumptions C76_first_event.
(** an event of a log with or without checksums, validated or not; an event passed over *)
Theorem C76_event : forall crc self validate,
  takes_exactly (parse_event crc self validate) (event_layout crc (p_checksum self) validate) /\
  takes_exactly (skip_event self) (fun _ w => skipped_layout w).
Proof. intros. split; [apply accepts_event|apply accepts_skip]. Qed.
Print Assumptions C76_event.
(** transactions and sets of transactions *)
Theorem C76_gtid : takes_message read_gtid_log gtid_log_layout /\ takes_message read_anonymous_gtid_log gtid_log_layout /\
  takes_exactly read_gtid_set gtid_set_layout.
Proof. split; [exact accepts_gtid_log|]. split; [exact accepts_anonymous|exact accepts_gtid_set]. Qed.
Print Assumptions C76_gtid.
(** queries with their status variables *)
Theorem C76_query : takes_message read_query_data query_layout /\ takes_exactly read_status_var status_var_layout /\
  takes_message read_status_vars status_vars_layout.
Proof. split; [exact accepts_query|]. split; [exact accepts_status_var|exact accepts_status_vars]. Qed.
Print Assumptions C76_query.
(** table maps and the heads of row events *)
Theorem C76_rows : takes_message read_table_map_data table_map_layout /\ takes_exactly read_raw_table_map raw_table_map_layout /\
  (takes_message read_write_rows_v1 rows_v1_layout /\ takes_message read_update_rows_v1 rows_v1_layout /\ takes_message read_delete_rows_v1 rows_v1_layout) /\
  (takes_message read_write_rows_v2 rows_v2_layout /\ takes_message read_update_rows_v2 rows_v2_layout /\ takes_message read_delete_rows_v2 rows_v2_layout).
Proof. split; [exact accepts_table_map|]. split; [exact accepts_raw_table_map|]. split; [exact accepts_rows_v1|exact accepts_rows_v2]. Qed.
Print Assumptions C76_rows.
(** loads of files *)
Theorem C76_loads : takes_message read_load load_layout /\ takes_message read_new_load new_load_layout /\
  takes_message read_create_file block_layout /\ takes_message read_append_block block_layout /\
  takes_message read_begin_load_query whole_block_layout /\ takes_message read_execute_load_query execute_load_query_layout /\
  takes_exactly read_exec_load (is_le 4) /\ takes_exactly read_delete_file (is_le 4).
Proof.
  split; [exact accepts_load|]. split; [exact accepts_new_load|]. split; [apply accepts_block|]. split; [apply accepts_block|].
  split; [exact accepts_whole_block|]. split; [exact accepts_execute_load_query|]. split; exact Proofs.AcceptsProofs.te_u32.
Qed.
Print Assumptions C76_loads.
(** the small ones *)
Theorem C76_small : takes_exactly read_xid xid_layout /\ takes_exactly read_rand rand_layout /\ takes_exactly read_intvar intvar_layout /\
  takes_exactly read_incident incident_layout /\ takes_message read_rotate rotate_layout /\
  takes_message read_user_var user_var_layout /\ takes_message read_user_var_value user_var_value_layout.
Proof.
  split; [exact accepts_xid|]. split; [exact accepts_rand|]. split; [exact accepts_intvar|]. split; [exact accepts_incident|].
  split; [exact accepts_rotate|]. split; [exact accepts_user_var|exact accepts_user_var_value].
Qed.
Print Assumptions C76_small.

(** an event of 27 bytes that commits transaction 5: taken with its checksum, refused with another *)
Definition xid_event : bytes := [x01; x00; x00; x00; x10; x01; x00; x00; x00; x1f; x00; x00; x00; x00; x00; x00; x00; x00; x00;
  x05; x00; x00; x00; x00; x00; x00; x00].
Example C76_event_taken : forall crc, crc xid_event = 7 ->
  event_layout crc true true (Some (mk_event KXid (mk_header 1 EtXid 1 31 0 0) [x05; x00; x00; x00; x00; x00; x00; x00])) (xid_event ++ [x07; x00; x00; x00]).
Proof.
  intros crc E. exists (mk_header 1 EtXid 1 31 0 0), (firstn 19 xid_event), (skipn 19 xid_event), [x07; x00; x00; x00].
  split; [reflexivity|]. split.
  - assert (X : read_event_header (firstn 19 xid_event ++ []) = (Ok (mk_header 1 EtXid 1 31 0 0), [])) by reflexivity.
    apply accepts_header in X. destruct X as (w & Ew & X). rewrite !app_nil_r in Ew. rewrite Ew. exact X.
  - repeat split. intros _. rewrite firstn_skipn, E. reflexivity.
Qed.
Example C76_event_refused : forall crc self o rest, crc xid_event = 8 -> p_checksum self = true ->
  parse_event crc self true (xid_event ++ [x07; x00; x00; x00]) <> (Ok o, rest).
Proof.
  intros crc [phl cs] o rest E S. cbn [p_checksum] in S. subst cs. unfold xid_event in E. vm_compute. rewrite E. discriminate.
Qed.
(** a set with the intervals 1 to 3 and 5 to 5 of one source; an interval that begins where one ended is refused *)
Definition set_bytes (s2 : byte) : bytes := [x01; x00; x00; x00; x00; x00; x00; x00] ++ repeat x0a 16 ++ [x02; x00; x00; x00; x00; x00; x00; x00] ++
  [x01; x00; x00; x00; x00; x00; x00; x00; x04; x00; x00; x00; x00; x00; x00; x00] ++ [s2; x00; x00; x00; x00; x00; x00; x00; x06; x00; x00; x00; x00; x00; x00; x00].
Example C76_set_taken : exists sid, gtid_set_layout [(sid, mk_gtid_range sid [(1, 3); (5, 5)])] (set_bytes x05).
Proof.
  exists (le_val (repeat x0a 16)). destruct (proj1 (accepts_gtid_set (set_bytes x05) [(le_val (repeat x0a 16), mk_gtid_range (le_val (repeat x0a 16)) [(1, 3); (5, 5)])] []))
    as (w & Ew & X); [vm_compute; reflexivity|]. rewrite app_nil_r in Ew. rewrite Ew. exact X.
Qed.
Example C76_set_refused : forall m, ~ gtid_set_layout m (set_bytes x04).
Proof.
  intros m H. assert (X : read_gtid_set (set_bytes x04 ++ []) = (Ok m, [])) by (apply accepts_gtid_set; eauto). vm_compute in X. discriminate.
Qed.
