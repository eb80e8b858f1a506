(** * Model of mybin-core/src/binlog/{mod,header,fde,parser}.rs: binlog events and files *)
From Coq Require Import Strings.String.
From Verif Require Import Model.Base Model.BytesParser Model.Utf8 Model.Flags.
Import ListNotations.
Open Scope N_scope.

(** mod.rs:42-82 *)
Inductive log_event_type :=
| EtUnknown | EtStartEventV3 | EtQuery | EtStop | EtRotate | EtIntvar | EtLoad | EtSlave
| EtCreateFile | EtAppendBlock | EtExecLoad | EtDeleteFile | EtNewLoad | EtRand | EtUserVar
| EtFormatDescription | EtXid | EtBeginLoadQuery | EtExecuteLoadQuery | EtTableMap
| EtWriteRowsV0 | EtUpdateRowsV0 | EtDeleteRowsV0
| EtWriteRowsV1 | EtUpdateRowsV1 | EtDeleteRowsV1
| EtIncident | EtHeartbeat | EtIgnorable | EtRowsQuery
| EtWriteRowsV2 | EtUpdateRowsV2 | EtDeleteRowsV2
| EtGtid | EtAnonymousGtid | EtPreviousGtids
| EtTransactionContext | EtViewChange | EtXaPrepare.

(** mod.rs:84-142, [LogEventType::try_from(u8)] *)
Definition event_type_of (code : N) : res log_event_type :=
  match code with
  | 0 => Ok EtUnknown
  | 1 => Ok EtStartEventV3
  | 2 => Ok EtQuery
  | 3 => Ok EtStop
  | 4 => Ok EtRotate
  | 5 => Ok EtIntvar
  | 6 => Ok EtLoad
  | 7 => Ok EtSlave
  | 8 => Ok EtCreateFile
  | 9 => Ok EtAppendBlock
  | 10 => Ok EtExecLoad
  | 11 => Ok EtDeleteFile
  | 12 => Ok EtNewLoad
  | 13 => Ok EtRand
  | 14 => Ok EtUserVar
  | 15 => Ok EtFormatDescription
  | 16 => Ok EtXid
  | 17 => Ok EtBeginLoadQuery
  | 18 => Ok EtExecuteLoadQuery
  | 19 => Ok EtTableMap
  | 20 => Ok EtWriteRowsV0
  | 21 => Ok EtUpdateRowsV0
  | 22 => Ok EtDeleteRowsV0
  | 23 => Ok EtWriteRowsV1
  | 24 => Ok EtUpdateRowsV1
  | 25 => Ok EtDeleteRowsV1
  | 26 => Ok EtIncident
  | 27 => Ok EtHeartbeat
  | 28 => Ok EtIgnorable
  | 29 => Ok EtRowsQuery
  | 30 => Ok EtWriteRowsV2
  | 31 => Ok EtUpdateRowsV2
  | 32 => Ok EtDeleteRowsV2
  | 33 => Ok EtGtid
  | 34 => Ok EtAnonymousGtid
  | 35 => Ok EtPreviousGtids
  | 36 => Ok EtTransactionContext
  | 37 => Ok EtViewChange
  | 38 => Ok EtXaPrepare
  | _ => Err EConstraint
  end.

(** mod.rs:144-188, [u8::from(LogEventType)] *)
Definition event_type_code (t : log_event_type) : N :=
  match t with
  | EtUnknown => 0
  | EtStartEventV3 => 1
  | EtQuery => 2
  | EtStop => 3
  | EtRotate => 4
  | EtIntvar => 5
  | EtLoad => 6
  | EtSlave => 7
  | EtCreateFile => 8
  | EtAppendBlock => 9
  | EtExecLoad => 10
  | EtDeleteFile => 11
  | EtNewLoad => 12
  | EtRand => 13
  | EtUserVar => 14
  | EtFormatDescription => 15
  | EtXid => 16
  | EtBeginLoadQuery => 17
  | EtExecuteLoadQuery => 18
  | EtTableMap => 19
  | EtWriteRowsV0 => 20
  | EtUpdateRowsV0 => 21
  | EtDeleteRowsV0 => 22
  | EtWriteRowsV1 => 23
  | EtUpdateRowsV1 => 24
  | EtDeleteRowsV1 => 25
  | EtIncident => 26
  | EtHeartbeat => 27
  | EtIgnorable => 28
  | EtRowsQuery => 29
  | EtWriteRowsV2 => 30
  | EtUpdateRowsV2 => 31
  | EtDeleteRowsV2 => 32
  | EtGtid => 33
  | EtAnonymousGtid => 34
  | EtPreviousGtids => 35
  | EtTransactionContext => 36
  | EtViewChange => 37
  | EtXaPrepare => 38
  end.

(** mod.rs:193-199: the type of the event at the start of the input *)
Definition read_event_type : parser log_event_type :=
  read_len 4 ;;; code <- read_u8 ;; plift (event_type_of code).
(** mod.rs:207-213: the length of the event at the start of the input *)
Definition read_event_length : parser N :=
  read_len 9 ;;; read_le_u32.

(** ** header.rs *)
(** header.rs:9-14 *)
Record event_header_v1 := mk_header_v1
  { h1_timestamp : N; h1_type : log_event_type; h1_server_id : N; h1_event_len : N }.
(** header.rs:16-23 (private, dead code) *)
Definition v1_data_len (h : event_header_v1) : res N := csub (h1_event_len h) 13.
(** header.rs:30-44 *)
Definition read_event_header_v1 : parser event_header_v1 :=
  timestamp <- read_le_u32 ;;
  type_code <- read_u8 ;;
  server_id <- read_le_u32 ;;
  event_len <- read_le_u32 ;;
  t <- plift (event_type_of type_code) ;;
  pret (mk_header_v1 timestamp t server_id event_len).

(** header.rs:46-59, EventHeaderFlags: u16 *)
Definition all_header_flags : N :=
  fold_left N.lor [0x0001; 0x0002; 0x0004; 0x0008; 0x0010; 0x0020; 0x0040; 0x0080; 0x0100; 0x0200] 0.
(** header.rs:62-69 *)
Record event_header := mk_header
  { h_timestamp : N; h_type : log_event_type; h_server_id : N; h_event_len : N; h_next_pos : N; h_flags : N }.
(** header.rs:71-76 *)
Definition data_len (h : event_header) : res N := csub (h_event_len h) 19.
(** header.rs:83-102 *)
Definition read_event_header : parser event_header :=
  h1 <- read_event_header_v1 ;;
  next_pos <- read_le_u32 ;;
  flags <- read_le_u16 ;;
  pret (mk_header (h1_timestamp h1) (h1_type h1) (h1_server_id h1) (h1_event_len h1) next_pos
          (from_bits_truncate all_header_flags flags)).

(** ** fde.rs *)
(** fde.rs:11-16 *)
Record start_data := mk_start { st_binlog_version : N; st_server_version : bytes; st_create_timestamp : N }.
(** fde.rs:18-32; [read_until] and [from_utf8] work on the 50 bytes split off *)
Definition read_start_data : parser start_data :=
  binlog_version <- read_le_u16 ;;
  field <- read_len 50 ;;
  server_version <- plift (fst (read_until x00 false field)) ;;
  server_version <- plift (from_utf8 server_version) ;;
  create_timestamp <- read_le_u32 ;;
  pret (mk_start binlog_version server_version create_timestamp).

(** fde.rs:37-47 *)
Record fde_data := mk_fde
  { fde_binlog_version : N; fde_server_version : bytes; fde_create_timestamp : N; fde_header_length : N;
    fde_post_header_lengths : bytes; fde_checksum_flag : N }.
(** [input.split_to(n)]: panics when [n] exceeds the remaining input *)
Definition split_to (n : N) : parser bytes := fun bs =>
  if blen bs <? n then (Panic PIndex, bs) else (Ok (firstn (N.to_nat n) bs), skipn (N.to_nat n) bs).
(** fde.rs:52-98 *)
Definition read_fde : parser fde_data :=
  st <- read_start_data ;;
  header_length <- read_u8 ;;
  own <- (fun bs => (bget bs (N.to_nat (event_type_code EtFormatDescription) - 1), bs)) ;;
  fde_post_header_len <- plift (csub (b2n own) 57) ;;
  remaining <- premaining ;;
  if remaining =? fde_post_header_len
  then
    post_header_lengths <- read_rest ;;
    pret (mk_fde (st_binlog_version st) (st_server_version st) (st_create_timestamp st) header_length
            post_header_lengths 0)
  else
    post_header_lengths <- split_to fde_post_header_len ;;
    checksum_flag <- read_u8 ;;
    pret (mk_fde (st_binlog_version st) (st_server_version st) (st_create_timestamp st) header_length
            post_header_lengths checksum_flag).

(** ** parser.rs *)
(** parser.rs:10-14 *)
Inductive binlog_version := V1 | V3 | V4.
(** parser.rs:25 *)
Definition magic : bytes := [xfe; x62; x69; x6e].
(** parser.rs:22-48 *)
Definition read_binlog_version : parser binlog_version :=
  m <- read_len 4 ;;
  if negb (beqb m magic) then pfail EConstraint
  else
    header <- ppeek read_event_header ;;
    match h_type header with
    | EtStartEventV3 => if h_event_len header <? 75 then pret V1 else pret V3
    | EtFormatDescription => pret V4
    | _ => pfail EConstraint
    end.

(** parser.rs:50-57 *)
Record parser_v4 := mk_parser { p_post_header_lengths : bytes; p_checksum : bool }.
(** parser.rs:228-233 *)
Definition post_header_lengths_from_raw (raw : bytes) : bytes := x00 :: raw.
(** parser.rs:70-74 *)
Definition from_fde (fde : fde_data) : parser_v4 :=
  mk_parser (post_header_lengths_from_raw (fde_post_header_lengths fde)) (fde_checksum_flag fde =? 1).
(** parser.rs:94-110 *)
Definition from_fde_bytes : parser (parser_v4 * option N) :=
  header <- read_event_header ;;
  len <- plift (data_len header) ;;
  raw_data <- read_len len ;;
  let '(r, raw_rest) := read_fde raw_data in
  data <- plift r ;;
  crc32 <- (if fde_checksum_flag data =? 1
            then if blen raw_rest <? 4 then pfail EBinlogEvent
                 else c <- plift (fst (read_le_u32 raw_rest)) ;; pret (Some c)
            else pret None) ;;
  pret (from_fde data, crc32).
(** parser.rs:79-89 *)
Definition from_binlog_file : parser parser_v4 :=
  v <- read_binlog_version ;;
  match v with
  | V4 => ' (pv4, _) <- from_fde_bytes ;; pret pv4
  | _ => pfail EBinlogFormat
  end.

(** mod.rs:331-364: the variants of [Event] *)
Inductive event_kind :=
| KStartEventV3 | KQuery | KStop | KRotate | KIntvar | KLoad | KCreateFile | KAppendBlock | KExecLoad
| KDeleteFile | KNewLoad | KRand | KUserVar | KFormatDescription | KXid | KBeginLoadQuery
| KExecuteLoadQuery | KTableMap | KWriteRowsV1 | KUpdateRowsV1 | KDeleteRowsV1 | KIncident | KHeartbeat
| KWriteRowsV2 | KUpdateRowsV2 | KDeleteRowsV2 | KGtid | KAnonymousGtid | KPreviousGtids.
(** a variant together with its [RawEvent] (mod.rs:224-244) *)
Record event := mk_event { ev_kind : event_kind; ev_header : event_header; ev_data : bytes }.
(** parser.rs:136-195: the match on the event type *)
Definition event_kind_of (t : log_event_type) : option event_kind :=
  match t with
  | EtStartEventV3 => Some KStartEventV3
  | EtQuery => Some KQuery
  | EtStop => Some KStop
  | EtRotate => Some KRotate
  | EtIntvar => Some KIntvar
  | EtLoad => Some KLoad
  | EtCreateFile => Some KCreateFile
  | EtAppendBlock => Some KAppendBlock
  | EtExecLoad => Some KExecLoad
  | EtDeleteFile => Some KDeleteFile
  | EtNewLoad => Some KNewLoad
  | EtRand => Some KRand
  | EtUserVar => Some KUserVar
  | EtFormatDescription => Some KFormatDescription
  | EtXid => Some KXid
  | EtBeginLoadQuery => Some KBeginLoadQuery
  | EtExecuteLoadQuery => Some KExecuteLoadQuery
  | EtTableMap => Some KTableMap
  | EtWriteRowsV1 => Some KWriteRowsV1
  | EtUpdateRowsV1 => Some KUpdateRowsV1
  | EtDeleteRowsV1 => Some KDeleteRowsV1
  | EtIncident => Some KIncident
  | EtHeartbeat => Some KHeartbeat
  | EtWriteRowsV2 => Some KWriteRowsV2
  | EtUpdateRowsV2 => Some KUpdateRowsV2
  | EtDeleteRowsV2 => Some KDeleteRowsV2
  | EtGtid => Some KGtid
  | EtAnonymousGtid => Some KAnonymousGtid
  | EtPreviousGtids => Some KPreviousGtids
  | _ => None
  end.

(** [bs.split_off(n)] and [bs.truncate(n)] where [n <= bs.len()] (the callers compute [n] as
    [remaining() - 4]): the first [n] bytes and the others *)
Definition split_at (n : N) (bs : bytes) : bytes * bytes := (firstn (N.to_nat n) bs, skipn (N.to_nat n) bs).

(** the CRC-32 of util.rs:3-7 (crate [crc-any]) is the parameter [crc] *)
(** parser.rs:117-128: checking the checksum on clones of the input *)
Definition check_checksum (crc : bytes -> N) : parser unit :=
  header <- ppeek read_event_header ;;
  raw_data <- ppeek (read_len (h_event_len header)) ;;
  n <- plift (csub (blen raw_data) 4) ;;
  let '(raw_data, checksum_data) := split_at n raw_data in
  expected <- plift (fst (read_le_u32 checksum_data)) ;;
  let actual := crc raw_data in
  if expected =? actual then pret tt else pfail (EChecksum expected actual).
(** parser.rs:116-198 *)
Definition parse_event (crc : bytes -> N) (self : parser_v4) (validate_checksum : bool) : parser (option event) :=
  (if p_checksum self && validate_checksum then check_checksum crc else pret tt) ;;;
  header <- read_event_header ;;
  len <- plift (data_len header) ;;
  data <- read_len len ;;
  data <- (if p_checksum self
           then n <- plift (csub (blen data) 4) ;; pret (fst (split_at n data))
           else pret data) ;;
  match event_kind_of (h_type header) with
  | Some k => pret (Some (mk_event k header data))
  | None => pret None
  end.
(** parser.rs:200-204 *)
Definition skip_event (self : parser_v4) : parser unit :=
  header <- read_event_header ;;
  len <- plift (data_len header) ;;
  read_len len ;;; pret tt.
(** parser.rs:206-222; the input is borrowed immutably *)
Definition checksum_event (crc : bytes -> N) (self : parser_v4) (input : bytes) : res unit :=
  if negb (p_checksum self) then Err EBinlogFormat
  else
    rbind (fst (read_event_header input)) (fun header =>
    rbind (fst (read_len (h_event_len header) input)) (fun raw_data =>
    rbind (csub (blen raw_data) 4) (fun n =>
    let '(raw_data, checksum_data) := split_at n raw_data in
    rbind (fst (read_le_u32 checksum_data)) (fun expected =>
    let actual := crc raw_data in
    if expected =? actual then Ok tt else Err (EChecksum expected actual))))).

(** binlog/util.rs, macro [try_from_event] (and mod.rs:241-243 [into_data]): the decoder [read] of
    variant [k]'s data applied to an event; any other variant is a [BinlogEventError] *)
Definition event_into {A} (k : event_kind) (read : parser A) (e : event) : res (event_header * A) :=
  if match ev_kind e, k with
     | KStartEventV3, KStartEventV3 | KQuery, KQuery | KStop, KStop | KRotate, KRotate
     | KIntvar, KIntvar | KLoad, KLoad | KCreateFile, KCreateFile | KAppendBlock, KAppendBlock
     | KExecLoad, KExecLoad | KDeleteFile, KDeleteFile | KNewLoad, KNewLoad | KRand, KRand
     | KUserVar, KUserVar | KFormatDescription, KFormatDescription | KXid, KXid
     | KBeginLoadQuery, KBeginLoadQuery | KExecuteLoadQuery, KExecuteLoadQuery
     | KTableMap, KTableMap | KWriteRowsV1, KWriteRowsV1 | KUpdateRowsV1, KUpdateRowsV1
     | KDeleteRowsV1, KDeleteRowsV1 | KIncident, KIncident | KHeartbeat, KHeartbeat
     | KWriteRowsV2, KWriteRowsV2 | KUpdateRowsV2, KUpdateRowsV2 | KDeleteRowsV2, KDeleteRowsV2
     | KGtid, KGtid | KAnonymousGtid, KAnonymousGtid | KPreviousGtids, KPreviousGtids => true
     | _, _ => false
     end
  then rbind (fst (read (ev_data e))) (fun d => Ok (ev_header e, d))
  else Err EBinlogEvent.
