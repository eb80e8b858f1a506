(** C16-C19: command packets.  The server's decoder is [server_request], Spec/Commands.v. *)
From Coq Require Import Strings.String Lia.
From Verif Require Import Model.Base Model.BytesParser Model.Utf8 Model.Packet Model.Auth Model.Cmd Spec.Wire Spec.Packets Spec.Commands
  Proofs.BaseLemmas Proofs.CmdProofs.
Open Scope N_scope.

(** ** C16: simple commands *)
Theorem C16_text_commands : forall cap s,
  server_request cap (write_query s) = Some (RqQuery s) /\
  server_request cap (write_init_db s) = Some (RqInitDb s) /\
  server_request cap (write_create_db s) = Some (RqCreateDb s) /\
  server_request cap (write_drop_db s) = Some (RqDropDb s) /\
  server_request cap (write_stmt_prepare s) = Some (RqStmtPrepare s).
Proof.
  exact (fun cap s => conj (sr_query cap s) (conj (sr_init_db cap s) (conj (sr_create_db cap s)
    (conj (sr_drop_db cap s) (sr_stmt_prepare cap s))))).
Qed.
Print Assumptions C16_text_commands.

Theorem C16_field_list : forall cap table wildcard, no_nul table ->
  server_request cap (write_field_list table wildcard) = Some (RqFieldList table wildcard).
Proof. exact sr_field_list. Qed.
Print Assumptions C16_field_list.

Theorem C16_numeric_commands : forall cap,
  (forall flags, flags < 2 ^ 8 -> server_request cap (write_refresh flags) = Some (RqRefresh flags)) /\
  (forall id, id < 2 ^ 32 ->
     server_request cap (write_process_kill id) = Some (RqProcessKill id) /\
     server_request cap (write_stmt_close id) = Some (RqStmtClose id) /\
     server_request cap (write_stmt_reset id) = Some (RqStmtReset id)) /\
  (forall id n, id < 2 ^ 32 -> n < 2 ^ 32 -> server_request cap (write_stmt_fetch id n) = Some (RqStmtFetch id n)).
Proof.
  exact (fun cap => conj (sr_refresh cap) (conj
    (fun id H => conj (sr_process_kill cap id H) (conj (sr_stmt_close cap id H) (sr_stmt_reset cap id H)))
    (sr_stmt_fetch cap))).
Qed.
Print Assumptions C16_numeric_commands.

Theorem C16_single_byte_commands : forall cap,
  server_request cap write_quit = Some RqQuit /\
  server_request cap write_statistics = Some RqStatistics /\
  server_request cap write_process_info = Some RqProcessInfo /\
  server_request cap write_debug = Some RqDebug /\
  server_request cap write_ping = Some RqPing /\
  server_request cap write_reset_connection = Some RqResetConnection.
Proof.
  exact (fun cap => conj (sr_quit cap) (conj (sr_statistics cap) (conj (sr_process_info cap)
    (conj (sr_debug cap) (conj (sr_ping cap) (sr_reset_connection cap)))))).
Qed.
Print Assumptions C16_single_byte_commands.

(** Finding: the option codes are swapped: a caller enabling multi-statements
    disables them at the server, and vice versa (MySQL: ON = 0, OFF = 1). *)
Theorem C16_set_option_refuted : forall cap multi_stmts,
  server_request cap (write_set_option multi_stmts) = Some (RqSetOption (negb multi_stmts)).
Proof. exact sr_set_option. Qed.
Print Assumptions C16_set_option_refuted.

Example C16_example :
  server_request 0 [x03; x53; x45] = Some (RqQuery [x53; x45]) /\
  server_request 0 (write_field_list (str "t") (str "c%")) = Some (RqFieldList (str "t") (str "c%")) /\
  server_request 0 [x0c; x01; x02; x00; x00] = Some (RqProcessKill 513).
Proof.
  split; [exact (proj1 (C16_text_commands 0 [x53; x45]))|]. split.
  - apply C16_field_list. intros [H|[]]; discriminate.
  - exact (proj1 (proj1 (proj2 (C16_numeric_commands 0)) 513 eq_refl)).
Qed.

(** ** C17: command codes *)
Theorem C17_round_trip : forall c, command_of (n2b (command_byte c)) = Some c.
Proof. exact command_of_byte. Qed.
Print Assumptions C17_round_trip.

Theorem C17_distinct : forall c d, command_byte c = command_byte d -> c = d.
Proof. exact command_byte_inj. Qed.
Print Assumptions C17_distinct.

(** a byte is accepted exactly when it is the code of the command returned *)
Theorem C17_decode_exact : forall b c, command_of b = Some c -> b2n b = command_byte c.
Proof.
  exact (fun b c H => eq_trans (f_equal b2n (command_of_inv b c H)) (b2n_n2b_small _ (command_byte_lt c))).
Qed.
Print Assumptions C17_decode_exact.

Theorem C17_unknown_rejected : forall b, command_of b = None <-> 32 <= b2n b.
Proof. exact command_of_none. Qed.
Print Assumptions C17_unknown_rejected.

(** the numbers are those of the MySQL protocol for every command the library sends *)
Theorem C17_protocol_codes :
  map command_byte [CmdQuit; CmdInitDB; CmdQuery; CmdFieldList; CmdCreateDB; CmdDropDB; CmdRefresh; CmdStatistics;
    CmdProcessInfo; CmdProcessKill; CmdDebug; CmdPing; CmdChangeUser; CmdBinlogDump; CmdTableDump; CmdRegisterSlave;
    CmdStmtPrepare; CmdStmtExecute; CmdStmtClose; CmdStmtReset; CmdSetOption; CmdStmtFetch; CmdBinlogDumpGtid;
    CmdResetConnection]
  = [1; 2; 3; 4; 5; 6; 7; 9; 10; 12; 13; 14; 17; 18; 19; 21; 22; 23; 25; 26; 27; 28; 30; 31].
Proof. exact eq_refl. Qed.
Print Assumptions C17_protocol_codes.

Example C17_example : command_of x1f = Some CmdResetConnection /\ command_of x20 = None.
Proof. split; [exact (C17_round_trip CmdResetConnection)|apply C17_unknown_rejected; discriminate]. Qed.

(** ** C18: commands with delimited strings *)
Theorem C18_register_slave : forall cap server_id host user password port rank master_id,
  server_id < 2 ^ 32 -> port < 2 ^ 16 -> rank < 2 ^ 32 -> master_id < 2 ^ 32 ->
  N.of_nat (length host) < 256 -> N.of_nat (length user) < 256 -> N.of_nat (length password) < 256 ->
  server_request cap (write_register_slave (mk_rs server_id host user password port rank master_id))
  = Some (RqRegisterSlave server_id host user password port rank master_id).
Proof.
  intros cap id h u p port rank master Hid Hp Hr Hm Hh Hu Hpw.
  rewrite (sr_register_slave_cut cap id h u p port rank master Hid Hp Hr Hm).
  rewrite (cut256_short h Hh), (cut256_short u Hu), (cut256_short p Hpw). reflexivity.
Qed.
Print Assumptions C18_register_slave.

(** longer strings: the packet stays well formed, but the strings are silently cut *)
Theorem C18_register_slave_long_refuted : forall cap server_id host user password port rank master_id,
  server_id < 2 ^ 32 -> port < 2 ^ 16 -> rank < 2 ^ 32 -> master_id < 2 ^ 32 ->
  server_request cap (write_register_slave (mk_rs server_id host user password port rank master_id))
  = Some (RqRegisterSlave server_id (cut256 host) (cut256 user) (cut256 password) port rank master_id)
  /\ (256 <= N.of_nat (length host) -> cut256 host <> host).
Proof.
  exact (fun cap id h u p port rank master H1 H2 H3 H4 =>
    conj (sr_register_slave_cut cap id h u p port rank master H1 H2 H3 H4) (cut256_long h)).
Qed.
Print Assumptions C18_register_slave_long_refuted.

Theorem C18_table_dump : forall cap db table,
  N.of_nat (length db) < 256 -> N.of_nat (length table) < 256 ->
  server_request cap (write_table_dump db table) = Some (RqTableDump db table).
Proof. exact sr_table_dump. Qed.
Print Assumptions C18_table_dump.

(** Finding: with a longer database name the length prefix is wrong. *)
Theorem C18_table_dump_long_refuted : forall cap db table, 256 <= N.of_nat (length db) ->
  server_request cap (write_table_dump db table) <> Some (RqTableDump db table).
Proof. exact sr_table_dump_long. Qed.
Print Assumptions C18_table_dump_long_refuted.

Theorem C18_change_user : forall cap c, no_nul (cu_user c) -> no_nul (cu_schema c) -> no_nul (cu_plugin c) ->
  cu_charset c < 2 ^ 16 ->
  (if cap_secure_connection cap then N.of_nat (length (cu_auth c)) < 256 else no_nul (cu_auth c)) ->
  Forall attr_ok (cu_attrs c) -> str_ok (attrs_wire (cu_attrs c)) ->
  server_request cap (write_change_user cap c)
  = Some (RqChangeUser (cu_user c) (cu_auth c) (cu_schema c) (cu_charset c)
      (if cap_plugin_auth cap then Some (cu_plugin c) else None)
      (if cap_connect_attrs cap then Some (map (fun a => (at_key a, at_value a)) (cu_attrs c)) else None)).
Proof. exact sr_change_user. Qed.
Print Assumptions C18_change_user.

(** Finding: longer authentication data never reaches the server. *)
Theorem C18_change_user_long_refuted : forall cap c, cap_secure_connection cap = true -> no_nul (cu_user c) ->
  256 <= N.of_nat (length (cu_auth c)) ->
  forall user db charset plugin attrs,
  server_request cap (write_change_user cap c) <> Some (RqChangeUser user (cu_auth c) db charset plugin attrs).
Proof. exact sr_change_user_long. Qed.
Print Assumptions C18_change_user_long_refuted.

Example C18_example :
  server_request 0 (write_register_slave (mk_rs 7 (str "h1") (str "repl") (repeat x70 255) 3306 0 9))
  = Some (RqRegisterSlave 7 (str "h1") (str "repl") (repeat x70 255) 3306 0 9) /\
  server_request 0x00188000 (write_change_user 0x00188000 (new_change_user (str "u") (repeat x01 20) (str "db") (str "p")
     [mk_attr (str "k") (repeat x76 252)]))
  = Some (RqChangeUser (str "u") (repeat x01 20) (str "db") 33 (Some (str "p")) (Some [(str "k", repeat x76 252)])).
Proof.
  split; [apply C18_register_slave; reflexivity|].
  apply (C18_change_user 0x00188000 (new_change_user (str "u") (repeat x01 20) (str "db") (str "p")
     [mk_attr (str "k") (repeat x76 252)])).
  1-3: unfold no_nul; cbn; intuition discriminate.
  1-2: reflexivity.
  - repeat constructor; discriminate.
  - split; [reflexivity|discriminate].
Qed.

(** ** C19: binlog dump requests *)
Theorem C19_dump_round_trip : forall d, bd_pos d < 2 ^ 32 -> bd_flags d < 2 ^ 16 -> bd_server_id d < 2 ^ 32 ->
  utf8_valid (bd_filename d) = true -> read_binlog_dump (write_binlog_dump d) = (Ok d, []).
Proof. exact dump_round_trip. Qed.
Print Assumptions C19_dump_round_trip.

Theorem C19_dump_request : forall cap d, bd_cmd d = CmdBinlogDump ->
  bd_pos d < 2 ^ 32 -> bd_flags d < 2 ^ 16 -> bd_server_id d < 2 ^ 32 ->
  server_request cap (write_binlog_dump d)
  = Some (RqBinlogDump (bd_pos d) (bd_flags d) (bd_server_id d) (bd_filename d)).
Proof. exact dump_request. Qed.
Print Assumptions C19_dump_request.

(** a request that is cut off is reported as incomplete, with the bytes that the field cut off still lacks *)
Theorem C19_dump_short : forall c r, (length r < 10)%nat ->
  fst (read_binlog_dump []) = Err (EIncomplete (Some 1)) /\
  fst (read_binlog_dump (n2b (command_byte c) :: r)) =
  Err (EIncomplete (Some ((if blen r <? 4 then 4 else if blen r <? 6 then 6 else 10) - blen r))).
Proof.
  intros c r H. split; [reflexivity|]. unfold read_binlog_dump, read_command.
  assert (command_of (n2b (command_byte c)) = Some c) as E by (destruct c; reflexivity).
  unfold pbind at 1 2, read_byte. rewrite E.
  do 10 (destruct r as [|? r]; [reflexivity|]). cbn [length] in H. lia.
Qed.
Print Assumptions C19_dump_short.
Example C19_ex_short : fst (read_binlog_dump [x12; x04; x00; x00]) = Err (EIncomplete (Some 1)).
Proof. reflexivity. Qed.
Theorem C19_gtid_round_trip : forall d, bg_flags d < 8 -> bg_server_id d < 2 ^ 32 ->
  utf8_valid (bg_filename d) = true -> N.of_nat (length (bg_filename d)) < 2 ^ 32 -> bg_pos d < 2 ^ 64 ->
  gtid_set_ok (gtids (bg_sids d)) -> gtid_set_size (gtids (bg_sids d)) < 2 ^ 32 ->
  read_binlog_dump_gtid (write_binlog_dump_gtid d) = (Ok d, []).
Proof. exact gtid_round_trip. Qed.
Print Assumptions C19_gtid_round_trip.

Theorem C19_gtid_request : forall cap d, bg_cmd d = CmdBinlogDumpGtid -> bg_flags d < 2 ^ 16 -> bg_server_id d < 2 ^ 32 ->
  N.of_nat (length (bg_filename d)) < 2 ^ 32 -> bg_pos d < 2 ^ 64 ->
  gtid_set_ok (gtids (bg_sids d)) -> gtid_set_size (gtids (bg_sids d)) < 2 ^ 32 ->
  server_request cap (write_binlog_dump_gtid d)
  = Some (RqBinlogDumpGtid (bg_flags d) (bg_server_id d) (bg_filename d) (bg_pos d) (gtids (bg_sids d))).
Proof. exact gtid_request. Qed.
Print Assumptions C19_gtid_request.

(** the builders set what they are asked to *)
Theorem C19_builders : forall pos filename server_id non_block use_gtid sids,
  let d := bd_non_block non_block (bd_set_server_id server_id (bd_set_filename filename (bd_set_pos pos default_binlog_dump))) in
  let g := bg_non_block non_block (bg_use_gtid use_gtid (bg_add_sids sids (bg_set_server_id server_id
             (bg_set_filename filename (bg_set_pos pos default_binlog_dump_gtid))))) in
  d = mk_bd CmdBinlogDump pos (if non_block then 1 else 0) server_id filename /\
  g = mk_bdg CmdBinlogDumpGtid ((if use_gtid then 4 else 2) + (if non_block then 1 else 0)) server_id filename pos sids.
Proof. intros pos filename server_id [] [] sids; split; reflexivity. Qed.
Print Assumptions C19_builders.
(** what is not set: reading starts at the first event (position 4, behind the magic number) of the
    server's first log, waits for further events, and no transaction is skipped *)
Theorem C19_defaults :
  server_request 0 (write_binlog_dump default_binlog_dump) = Some (RqBinlogDump 4 0 0 []) /\
  server_request 0 (write_binlog_dump_gtid default_binlog_dump_gtid) = Some (RqBinlogDumpGtid 2 0 [] 4 []).
Proof. split; vm_compute; reflexivity. Qed.
Print Assumptions C19_defaults.

Example C19_example :
  let d := bg_use_gtid true (bg_sid (mk_sid 456 [(1, 5)%Z; (9, 11)%Z]) (bg_set_filename (str "mysql-bin.000001") default_binlog_dump_gtid)) in
  read_binlog_dump_gtid (write_binlog_dump_gtid d) = (Ok d, []) /\
  server_request 0 (write_binlog_dump_gtid d)
  = Some (RqBinlogDumpGtid 4 0 (str "mysql-bin.000001") 4 [(456, [(1, 5)%Z; (9, 11)%Z])]).
Proof.
  assert (H : gtid_set_ok [(456, [(1, 5)%Z; (9, 11)%Z])]) by (unfold gtid_set_ok, i64; repeat constructor; discriminate).
  split.
  - apply C19_gtid_round_trip; first [reflexivity | exact H].
  - apply (C19_gtid_request 0 (bg_use_gtid true (bg_sid (mk_sid 456 [(1, 5)%Z; (9, 11)%Z])
      (bg_set_filename (str "mysql-bin.000001") default_binlog_dump_gtid)))); first [reflexivity | exact H].
Qed.
