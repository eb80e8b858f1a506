(** * How much a decoded value holds

    The size of a decoded value: the bytes of the strings in it, plus one for every element of a list
    (the elements of a list of column values are not counted one by one: a NULL takes no bytes). *)
From Coq Require Import List NArith.
From Verif Require Import Model.Base Model.BytesParser Model.LenEnc Model.Decimal Model.Cmd Model.Packet Model.Col Model.Row Model.Event
  Model.EventBody Model.Rows Model.Stmt Model.Session.
Import ListNotations.
Local Open Scope nat_scope.

(** the decoder [p] makes nothing out of thin air: what it returns, and what it leaves, fits in its input *)
Definition within {A} (size : A -> nat) (p : parser A) : Prop :=
  forall input a rest, p input = (Ok a, rest) -> size a + length rest <= length input.

(** a list of elements, each counted *)
Definition counted {A} (size : A -> nat) (l : list A) : nat := list_sum (map (fun a => S (size a)) l).
(** a list of elements, only the contents counted *)
Definition contents {A} (size : A -> nat) (l : list A) : nat := list_sum (map size l).
Definition nothing {A} (a : A) : nat := 0.
Definition opt_size (o : option bytes) : nat := match o with Some s => length s | None => 0 end.

(** ** The messages of the session *)
Definition packet_size (p : packet) : nat := length (p_payload p).
Definition ok_size (p : ok_packet) : nat := length (ok_info p) + length (ok_session_state p).
Definition err_size (p : err_packet) : nat := length (er_state p) + length (er_message p).
Definition handshake_size (h : initial_handshake) : nat :=
  length (hs_server_version h) + length (hs_auth_data_1 h) + length (hs_auth_data_2 h) + length (hs_plugin h).
Definition switch_size (s : auth_switch) : nat := length (sw_plugin s) + length (sw_data s).
Definition more_size (m : auth_more) : nat := length (am_data m).
Definition handshake_message_size (m : handshake_message) : nat :=
  match m with HmOk p => ok_size p | HmErr p => err_size p | HmSwitch p => switch_size p | HmMore p => more_size p end.
Definition response_size (r : com_response) : nat := match r with CrOk p => ok_size p | CrErr p => err_size p end.
Definition column_def_size (d : column_def) : nat :=
  length (cd_catalog d) + length (cd_schema d) + length (cd_table d) + length (cd_org_table d) + length (cd_name d) +
  length (cd_org_name d) + length (cd_default d).
Definition field_list_size (r : field_list_response) : nat :=
  match r with FlColDef d => column_def_size d | FlErr p => err_size p | FlEof _ => 0 end.
Definition change_user_size (r : change_user_response) : nat :=
  match r with CuErr p => err_size p | CuSwitch p => switch_size p | CuOk p => ok_size p | CuMore p => more_size p end.

(** ** Column values *)
Definition value_size (v : binary_value) : nat :=
  match v with
  | BBit s | BNewDecimal s | BBlob s | BVarString s | BString s | BGeometry s => length s
  | _ => 0
  end.
Definition log_value_size (v : binlog_value) : nat :=
  match v with
  | LBit s | LBlob s | LVarString s | LString s | LGeometry s => length s
  | LNewDecimal d => length (d_buf d)
  | _ => 0
  end.

(** ** The bodies of the events *)
Definition fde_size (f : fde_data) : nat := length (fde_server_version f) + length (fde_post_header_lengths f).
Definition query_size (q : query_data) : nat := length (q_status_vars q) + length (q_schema q) + length (q_query q).
Definition status_var_size (v : status_var) : nat :=
  match v with
  | SvCatalog s | SvTimeZone s | SvCatalogNz s => length s
  | SvInvokers u h => length u + length h
  | SvUpdatedDbNames l => counted (@length byte) l
  | _ => 0
  end.
Definition user_var_size (u : user_var) : nat := length (uv_name u) + length (uv_value u).
Definition load_size (d : load_data) : nat :=
  length (ld_field_name_lengths d) + length (ld_field_names d) + length (ld_table_name d) +
  length (ld_schema_name d) + length (ld_file_name d).
Definition new_load_size (d : new_load_data) : nat :=
  length (nl_field_term d) + length (nl_enclosed_by d) + length (nl_line_term d) + length (nl_line_start d) +
  length (nl_escaped_by d) + length (nl_field_name_lengths d) + length (nl_field_names d) + length (nl_table_name d) +
  length (nl_schema_name d) + length (nl_file_name d).
Definition gtid_range_size (r : gtid_range) : nat := counted nothing (gr_intervals r).
Definition gtid_set_size (l : list (N * gtid_range)) : nat := counted (fun e => gtid_range_size (snd e)) l.
Definition raw_table_map_size (t : raw_table_map) : nat :=
  length (rtm_schema_name t) + length (rtm_table_name t) + length (rtm_col_defs t) + length (rtm_col_meta_defs t) +
  length (rtm_null_bitmap t).
Definition table_map_size (t : table_map) : nat :=
  length (tm_schema_name t) + length (tm_table_name t) + counted nothing (tm_col_metas t) + length (tm_null_bitmap t).

(** every row counts one, plus the strings of its values *)
Definition rows_size (r : rows_v2) : nat :=
  length (r_extra_data r) + length (r_present_bitmap r) + counted (contents log_value_size) (r_rows r).
Definition update_rows_size (r : update_rows_v2) : nat :=
  length (u_extra_data r) + length (u_before_present_bitmap r) + length (u_after_present_bitmap r) +
  counted (fun p => contents log_value_size (fst p) + contents log_value_size (snd p)) (u_rows r).

(** ** The requests of a replica *)
Definition sid_range_size (s : sid_range) : nat := counted nothing (sid_intervals s).
Definition dump_size (d : binlog_dump) : nat := length (bd_filename d).
Definition dump_gtid_size (d : binlog_dump_gtid) : nat := length (bg_filename d) + counted sid_range_size (bg_sids d).

(** ** The cells of the rows of an event *)
Definition cells (l : list (list binlog_value)) : nat := list_sum (map (@length _) l).
