(** * Model of mybin-core/src/lib.rs (Command) and of the request side of mybin-core/src/cmd *)
From Verif Require Import Model.Base Model.BytesParser Model.LenEnc Model.Utf8 Model.Flags Model.Packet.
Open Scope N_scope.

(** lib.rs:25-58 *)
Inductive command : Type :=
| CmdSleep
| CmdQuit
| CmdInitDB
| CmdQuery
| CmdFieldList
| CmdCreateDB
| CmdDropDB
| CmdRefresh
| CmdShutdown
| CmdStatistics
| CmdProcessInfo
| CmdConnect
| CmdProcessKill
| CmdDebug
| CmdPing
| CmdTime
| CmdDelayedInsert
| CmdChangeUser
| CmdBinlogDump
| CmdTableDump
| CmdConnectOut
| CmdRegisterSlave
| CmdStmtPrepare
| CmdStmtExecute
| CmdStmtSendLongData
| CmdStmtClose
| CmdStmtReset
| CmdSetOption
| CmdStmtFetch
| CmdDaemon
| CmdBinlogDumpGtid
| CmdResetConnection.

(** lib.rs:60-97, [Command::to_byte] *)
Definition command_byte (c : command) : N :=
  match c with
  | CmdSleep => 0x00
  | CmdQuit => 0x01
  | CmdInitDB => 0x02
  | CmdQuery => 0x03
  | CmdFieldList => 0x04
  | CmdCreateDB => 0x05
  | CmdDropDB => 0x06
  | CmdRefresh => 0x07
  | CmdShutdown => 0x08
  | CmdStatistics => 0x09
  | CmdProcessInfo => 0x0a
  | CmdConnect => 0x0b
  | CmdProcessKill => 0x0c
  | CmdDebug => 0x0d
  | CmdPing => 0x0e
  | CmdTime => 0x0f
  | CmdDelayedInsert => 0x10
  | CmdChangeUser => 0x11
  | CmdBinlogDump => 0x12
  | CmdTableDump => 0x13
  | CmdConnectOut => 0x14
  | CmdRegisterSlave => 0x15
  | CmdStmtPrepare => 0x16
  | CmdStmtExecute => 0x17
  | CmdStmtSendLongData => 0x18
  | CmdStmtClose => 0x19
  | CmdStmtReset => 0x1a
  | CmdSetOption => 0x1b
  | CmdStmtFetch => 0x1c
  | CmdDaemon => 0x1d
  | CmdBinlogDumpGtid => 0x1e
  | CmdResetConnection => 0x1f
  end.

(** lib.rs:99-140, [TryFrom<u8> for Command]; [None] is [InvalidCommandCode] *)
Definition command_of (b : byte) : option command :=
  match b with
  | x00 => Some CmdSleep
  | x01 => Some CmdQuit
  | x02 => Some CmdInitDB
  | x03 => Some CmdQuery
  | x04 => Some CmdFieldList
  | x05 => Some CmdCreateDB
  | x06 => Some CmdDropDB
  | x07 => Some CmdRefresh
  | x08 => Some CmdShutdown
  | x09 => Some CmdStatistics
  | x0a => Some CmdProcessInfo
  | x0b => Some CmdConnect
  | x0c => Some CmdProcessKill
  | x0d => Some CmdDebug
  | x0e => Some CmdPing
  | x0f => Some CmdTime
  | x10 => Some CmdDelayedInsert
  | x11 => Some CmdChangeUser
  | x12 => Some CmdBinlogDump
  | x13 => Some CmdTableDump
  | x14 => Some CmdConnectOut
  | x15 => Some CmdRegisterSlave
  | x16 => Some CmdStmtPrepare
  | x17 => Some CmdStmtExecute
  | x18 => Some CmdStmtSendLongData
  | x19 => Some CmdStmtClose
  | x1a => Some CmdStmtReset
  | x1b => Some CmdSetOption
  | x1c => Some CmdStmtFetch
  | x1d => Some CmdDaemon
  | x1e => Some CmdBinlogDumpGtid
  | x1f => Some CmdResetConnection
  | _ => None
  end.

(** ** Commands without or with fixed arguments *)

(** util.rs:66-88, [single_byte_cmd!], used by cmd/simple.rs (statistics, process
    info, debug, ping, reset connection) and quit.rs:17-21 *)
Definition write_statistics : bytes := write_u8 (command_byte CmdStatistics).
Definition write_process_info : bytes := write_u8 (command_byte CmdProcessInfo).
Definition write_debug : bytes := write_u8 (command_byte CmdDebug).
Definition write_ping : bytes := write_u8 (command_byte CmdPing).
Definition write_reset_connection : bytes := write_u8 (command_byte CmdResetConnection).
Definition write_quit : bytes := write_u8 (command_byte CmdQuit).

(** cmd/query.rs:22-29 *)
Definition write_query (sql : bytes) : bytes := write_u8 (command_byte CmdQuery) ++ write_bytes sql.
(** cmd/init_db.rs:21-28 *)
Definition write_init_db (db : bytes) : bytes := write_u8 (command_byte CmdInitDB) ++ write_bytes db.
(** cmd/create_db.rs:22-29 *)
Definition write_create_db (db : bytes) : bytes := write_u8 (command_byte CmdCreateDB) ++ write_bytes db.
(** cmd/drop_db.rs:22-29 *)
Definition write_drop_db (db : bytes) : bytes := write_u8 (command_byte CmdDropDB) ++ write_bytes db.
(** cmd/field_list.rs:30-39 *)
Definition write_field_list (table wildcard : bytes) : bytes :=
  write_u8 (command_byte CmdFieldList) ++ write_bytes table ++ write_u8 0 ++ write_bytes wildcard.
(** cmd/refresh.rs:23-29 *)
Definition write_refresh (flags : N) : bytes := write_u8 (command_byte CmdRefresh) ++ write_u8 flags.
(** cmd/process_kill.rs:22-28 *)
Definition write_process_kill (id : N) : bytes := write_u8 (command_byte CmdProcessKill) ++ write_le_u32 id.
(** cmd/set_option.rs:23-29 *)
Definition write_set_option (multi_stmts : bool) : bytes :=
  write_u8 (command_byte CmdSetOption) ++ write_le_u16 (if multi_stmts then 1 else 0).
(** cmd/stmt_prepare.rs:23-30 *)
Definition write_stmt_prepare (sql : bytes) : bytes :=
  write_u8 (command_byte CmdStmtPrepare) ++ write_bytes sql.
(** cmd/stmt_close.rs:21-27 *)
Definition write_stmt_close (id : N) : bytes := write_u8 (command_byte CmdStmtClose) ++ write_le_u32 id.
(** cmd/stmt_reset.rs:21-27 *)
Definition write_stmt_reset (id : N) : bytes := write_u8 (command_byte CmdStmtReset) ++ write_le_u32 id.
(** cmd/stmt_fetch.rs:24-31 *)
Definition write_stmt_fetch (id n_rows : N) : bytes :=
  write_u8 (command_byte CmdStmtFetch) ++ write_le_u32 id ++ write_le_u32 n_rows.

(** ** Commands with delimited strings *)

(** cmd/register_slave.rs:9-21; [new] (23-44) fills the fields from its arguments *)
Record register_slave := mk_rs {
  rs_server_id : N; rs_host : bytes; rs_user : bytes; rs_password : bytes;
  rs_port : N; rs_rank : N; rs_master_id : N }.

(** register_slave.rs:50-58: [let n = s.len() as u8; write n; write s[..n]] *)
Definition write_str8 (s : bytes) : bytes :=
  let n := trunc 8 (blen s) in write_u8 n ++ firstn (N.to_nat n) s.

(** cmd/register_slave.rs:46-65 *)
Definition write_register_slave (r : register_slave) : bytes :=
  write_u8 (command_byte CmdRegisterSlave) ++
  write_le_u32 (rs_server_id r) ++
  write_str8 (rs_host r) ++
  write_str8 (rs_user r) ++
  write_str8 (rs_password r) ++
  write_le_u16 (rs_port r) ++
  write_le_u32 (rs_rank r) ++
  write_le_u32 (rs_master_id r).

(** cmd/table_dump.rs:27-37: the lengths are cast to [u8], the strings are not cut *)
Definition write_table_dump (db table : bytes) : bytes :=
  write_u8 (command_byte CmdTableDump) ++
  write_u8 (trunc 8 (blen db)) ++ write_bytes db ++
  write_u8 (trunc 8 (blen table)) ++ write_bytes table.

(** cmd/change_user.rs:11-20; [new] (22-43) sets charset 33 *)
Record change_user := mk_cu {
  cu_user : bytes; cu_auth : bytes; cu_schema : bytes; cu_charset : N; cu_plugin : bytes;
  cu_attrs : list connect_attr }.
Definition new_change_user (user auth db plugin : bytes) (attrs : list connect_attr) : change_user :=
  mk_cu user auth db 33 plugin attrs.

(** cmd/change_user.rs:45-82 *)
Definition write_change_user (cap : N) (c : change_user) : bytes :=
  write_u8 (command_byte CmdChangeUser) ++
  write_bytes (cu_user c) ++ write_u8 0 ++
  (if contains cap SECURE_CONNECTION
   then write_u8 (trunc 8 (blen (cu_auth c))) ++ write_bytes (cu_auth c)
   else write_bytes (cu_auth c) ++ write_u8 0) ++
  write_bytes (cu_schema c) ++ write_u8 0 ++
  write_le_u16 (cu_charset c) ++
  (if contains cap PLUGIN_AUTH then write_bytes (cu_plugin c) ++ write_u8 0 else []) ++
  (if contains cap CONNECT_ATTRS
   then les_write (LesBytes (flat_map (fun a =>
          les_write (LesBytes (at_key a)) ++ les_write (LesBytes (at_value a))) (cu_attrs c)))
   else []).

(** ** Binlog dump requests *)

(** cmd/binlog_dump.rs:9-16 *)
Record binlog_dump := mk_bd {
  bd_cmd : command; bd_pos : N; bd_flags : N; bd_server_id : N; bd_filename : bytes }.
(** binlog_dump.rs:46-56 *)
Definition default_binlog_dump : binlog_dump := mk_bd CmdBinlogDump 4 0 0 [].
(** binlog_dump.rs:19-44: the builders *)
Definition bd_set_pos (n : N) (d : binlog_dump) : binlog_dump :=
  mk_bd (bd_cmd d) n (bd_flags d) (bd_server_id d) (bd_filename d).
Definition bd_set_filename (s : bytes) (d : binlog_dump) : binlog_dump :=
  mk_bd (bd_cmd d) (bd_pos d) (bd_flags d) (bd_server_id d) s.
Definition bd_set_server_id (n : N) (d : binlog_dump) : binlog_dump :=
  mk_bd (bd_cmd d) (bd_pos d) (bd_flags d) n (bd_filename d).
Definition bd_non_block (b : bool) (d : binlog_dump) : binlog_dump :=
  mk_bd (bd_cmd d) (bd_pos d) (if b then 1 else 0) (bd_server_id d) (bd_filename d).

(** [Command::try_from(cmd).map_err(ConstraintError)], binlog_dump.rs:62-68 and 172-178 *)
Definition read_command : parser command :=
  b <- read_byte ;;
  match command_of b with Some c => pret c | None => pfail EConstraint end.

(** binlog_dump.rs:58-81 *)
Definition read_binlog_dump : parser binlog_dump :=
  cmd <- read_command ;;
  pos <- read_le_u32 ;;
  flags <- read_le_u16 ;;
  server_id <- read_le_u32 ;;
  filename <- read_rest ;;
  filename <- plift (from_utf8 filename) ;;
  pret (mk_bd cmd pos flags server_id filename).
(** binlog_dump.rs:83-93 *)
Definition write_binlog_dump (d : binlog_dump) : bytes :=
  write_u8 (command_byte (bd_cmd d)) ++
  write_le_u32 (bd_pos d) ++
  write_le_u16 (bd_flags d) ++
  write_le_u32 (bd_server_id d) ++
  write_bytes (bd_filename d).

(** binlog_dump.rs:271-276 *)
Record sid_range := mk_sid { sid_id : N; sid_intervals : list (Z * Z) }.
(** binlog_dump.rs:278-282 *)
Definition sid_bytes_len (s : sid_range) : N := 16 + 8 + 16 * N.of_nat (length (sid_intervals s)).
(** [Vec::with_capacity(n)] for elements of [size] bytes: panics when the capacity in
    bytes exceeds [isize::MAX].  Failing to obtain the memory (an abort) is not modelled. *)
Definition with_capacity (size n : N) : res unit := if 2 ^ 63 <=? size * n then Panic PAlloc else Ok tt.

(** binlog_dump.rs:284-295.  Loops over an untrusted count are modelled by [prepeat];
    every iteration consumes input or fails, so they end with the input. *)
Definition read_sid_range : parser sid_range :=
  sid <- read_le_u128 ;;
  n <- read_le_u64 ;;
  plift (with_capacity 16 n) ;;;
  intervals <- prepeat (N.to_nat n)
    (start <- read_le_i64 ;; end_ <- read_le_i64 ;; pret (start, end_)) ;;
  pret (mk_sid sid intervals).
(** binlog_dump.rs:297-310 *)
Definition write_sid_range (s : sid_range) : bytes :=
  write_le_u128 (sid_id s) ++
  write_le_u64 (trunc 64 (N.of_nat (length (sid_intervals s)))) ++
  flat_map (fun '(start, end_) => write_le_i64 start ++ write_le_i64 end_) (sid_intervals s).

(** binlog_dump.rs:238-242 *)
Definition sid_data_bytes_len (l : list sid_range) : N :=
  fold_right (fun s acc => sid_bytes_len s + acc) 0 l + 8.
(** binlog_dump.rs:244-254; a [SidRange] takes 40 bytes *)
Definition read_sid_data : parser (list sid_range) :=
  n <- read_le_u64 ;;
  plift (with_capacity 40 n) ;;;
  prepeat (N.to_nat n) read_sid_range.
(** binlog_dump.rs:256-268 *)
Definition write_sid_data (l : list sid_range) : bytes :=
  write_le_u64 (trunc 64 (N.of_nat (length l))) ++ flat_map write_sid_range l.

(** binlog_dump.rs:221-227 *)
Definition BD_NON_BLOCK : N := 0x0001.
Definition BD_THROUGH_POSITION : N := 0x0002.
Definition BD_THROUGH_GTID : N := 0x0004.
Definition all_gtid_flags : N := fold_left N.lor [BD_NON_BLOCK; BD_THROUGH_POSITION; BD_THROUGH_GTID] 0.

(** binlog_dump.rs:96-108 *)
Record binlog_dump_gtid := mk_bdg {
  bg_cmd : command; bg_flags : N; bg_server_id : N; bg_filename : bytes; bg_pos : N;
  bg_sids : list sid_range }.
(** binlog_dump.rs:155-166 *)
Definition default_binlog_dump_gtid : binlog_dump_gtid :=
  mk_bdg CmdBinlogDumpGtid BD_THROUGH_POSITION 0 [] 4 [].
(** binlog_dump.rs:110-153: the builders *)
Definition bg_set_pos (n : N) (d : binlog_dump_gtid) : binlog_dump_gtid :=
  mk_bdg (bg_cmd d) (bg_flags d) (bg_server_id d) (bg_filename d) n (bg_sids d).
Definition bg_set_filename (s : bytes) (d : binlog_dump_gtid) : binlog_dump_gtid :=
  mk_bdg (bg_cmd d) (bg_flags d) (bg_server_id d) s (bg_pos d) (bg_sids d).
Definition bg_set_server_id (n : N) (d : binlog_dump_gtid) : binlog_dump_gtid :=
  mk_bdg (bg_cmd d) (bg_flags d) n (bg_filename d) (bg_pos d) (bg_sids d).
Definition bg_sid (s : sid_range) (d : binlog_dump_gtid) : binlog_dump_gtid :=
  mk_bdg (bg_cmd d) (bg_flags d) (bg_server_id d) (bg_filename d) (bg_pos d) (bg_sids d ++ [s]).
Definition bg_add_sids (l : list sid_range) (d : binlog_dump_gtid) : binlog_dump_gtid :=
  mk_bdg (bg_cmd d) (bg_flags d) (bg_server_id d) (bg_filename d) (bg_pos d) (bg_sids d ++ l).
Definition bg_use_gtid (b : bool) (d : binlog_dump_gtid) : binlog_dump_gtid :=
  let flags := if b then insert (remove (bg_flags d) BD_THROUGH_POSITION) BD_THROUGH_GTID
               else remove (insert (bg_flags d) BD_THROUGH_POSITION) BD_THROUGH_GTID in
  mk_bdg (bg_cmd d) flags (bg_server_id d) (bg_filename d) (bg_pos d) (bg_sids d).
Definition bg_non_block (b : bool) (d : binlog_dump_gtid) : binlog_dump_gtid :=
  let flags := if b then insert (bg_flags d) BD_NON_BLOCK else remove (bg_flags d) BD_NON_BLOCK in
  mk_bdg (bg_cmd d) flags (bg_server_id d) (bg_filename d) (bg_pos d) (bg_sids d).

(** binlog_dump.rs:168-201 *)
Definition read_binlog_dump_gtid : parser binlog_dump_gtid :=
  cmd <- read_command ;;
  flags <- read_le_u16 ;;
  match from_bits all_gtid_flags flags with
  | None => pfail EConstraint
  | Some flags =>
      server_id <- read_le_u32 ;;
      filename_len <- read_le_u32 ;;
      filename <- read_len filename_len ;;
      filename <- plift (from_utf8 filename) ;;
      pos <- read_le_u64 ;;
      sid_data_len <- read_le_u32 ;;
      raw_data <- read_len sid_data_len ;;
      sids <- plift (fst (read_sid_data raw_data)) ;;
      pret (mk_bdg cmd flags server_id filename pos sids)
  end.
(** binlog_dump.rs:203-219 *)
Definition write_binlog_dump_gtid (d : binlog_dump_gtid) : bytes :=
  write_u8 (command_byte (bg_cmd d)) ++
  write_le_u16 (bg_flags d) ++
  write_le_u32 (bg_server_id d) ++
  write_le_u32 (trunc 32 (blen (bg_filename d))) ++
  write_bytes (bg_filename d) ++
  write_le_u64 (bg_pos d) ++
  write_le_u32 (trunc 32 (sid_data_bytes_len (bg_sids d))) ++
  write_sid_data (bg_sids d).
