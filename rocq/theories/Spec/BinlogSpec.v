(** * Independent specification: binlog events and files as MySQL writes them

    From the MySQL documentation (binary log v4: event header, format description
    event, checksums) and the event type table of libbinlogevents. *)
From Coq Require Import List NArith Arith Bool.
From Verif Require Import Model.Base Model.Utf8 Model.Event Spec.Wire.
Import ListNotations.
Open Scope N_scope.

(** event types by code *)
Definition event_types : list log_event_type :=
  [EtUnknown; EtStartEventV3; EtQuery; EtStop; EtRotate; EtIntvar; EtLoad; EtSlave; EtCreateFile;
   EtAppendBlock; EtExecLoad; EtDeleteFile; EtNewLoad; EtRand; EtUserVar; EtFormatDescription; EtXid;
   EtBeginLoadQuery; EtExecuteLoadQuery; EtTableMap; EtWriteRowsV0; EtUpdateRowsV0; EtDeleteRowsV0;
   EtWriteRowsV1; EtUpdateRowsV1; EtDeleteRowsV1; EtIncident; EtHeartbeat; EtIgnorable; EtRowsQuery;
   EtWriteRowsV2; EtUpdateRowsV2; EtDeleteRowsV2; EtGtid; EtAnonymousGtid; EtPreviousGtids;
   EtTransactionContext; EtViewChange; EtXaPrepare].
Definition type_with_code (code : N) : option log_event_type := nth_error event_types (N.to_nat code).

(** the events the library reports, by code *)
Definition supported : list (N * event_kind) :=
  [(1, KStartEventV3); (2, KQuery); (3, KStop); (4, KRotate); (5, KIntvar); (6, KLoad); (8, KCreateFile);
   (9, KAppendBlock); (10, KExecLoad); (11, KDeleteFile); (12, KNewLoad); (13, KRand); (14, KUserVar);
   (15, KFormatDescription); (16, KXid); (17, KBeginLoadQuery); (18, KExecuteLoadQuery); (19, KTableMap);
   (23, KWriteRowsV1); (24, KUpdateRowsV1); (25, KDeleteRowsV1); (26, KIncident); (27, KHeartbeat);
   (30, KWriteRowsV2); (31, KUpdateRowsV2); (32, KDeleteRowsV2); (33, KGtid); (34, KAnonymousGtid);
   (35, KPreviousGtids)].
Definition kind_with_code (code : N) : option event_kind :=
  option_map snd (find (fun p => fst p =? code) supported).

(** the 19-byte event header *)
Definition header_bytes (timestamp code server_id len next_pos flags : N) : bytes :=
  wle 4 timestamp ++ wle 1 code ++ wle 4 server_id ++ wle 4 len ++ wle 4 next_pos ++ wle 2 flags.
Definition header_fields_ok (timestamp code server_id len next_pos flags : N) : Prop :=
  timestamp < 2 ^ 32 /\ code < 2 ^ 8 /\ server_id < 2 ^ 32 /\ len < 2 ^ 32 /\ next_pos < 2 ^ 32 /\ flags < 2 ^ 16.

(** an event before it is written to a log; the length is computed when writing *)
Record log_event := mk_log_event
  { le_timestamp : N; le_code : N; le_server_id : N; le_next_pos : N; le_flags : N; le_body : bytes }.
(** length of the event in a log with ([sum]) or without checksums *)
Definition event_size (sum : bool) (e : log_event) : N :=
  19 + N.of_nat (length (le_body e)) + (if sum then 4 else 0).
(** the event without its checksum *)
Definition event_front (sum : bool) (e : log_event) : bytes :=
  header_bytes (le_timestamp e) (le_code e) (le_server_id e) (event_size sum e) (le_next_pos e) (le_flags e)
    ++ le_body e.
(** the event as stored: the checksum covers everything before it *)
Definition stored (crc : bytes -> N) (sum : bool) (e : log_event) : bytes :=
  event_front sum e ++ (if sum then wle 4 (crc (event_front sum e)) else []).
Definition log_event_ok (sum : bool) (e : log_event) : Prop :=
  le_timestamp e < 2 ^ 32 /\ le_code e < 39 /\ le_server_id e < 2 ^ 32 /\ event_size sum e < 2 ^ 32 /\
  le_next_pos e < 2 ^ 32 /\ le_flags e < 2 ^ 16.

(** what a reader should get for it: nothing for an unsupported event, otherwise the variant, the
    header (flags above the ten defined ones dropped) and the body *)
Definition header_for (sum : bool) (e : log_event) : option event_header :=
  option_map (fun t => mk_header (le_timestamp e) t (le_server_id e) (event_size sum e) (le_next_pos e)
                         (le_flags e mod 1024)) (type_with_code (le_code e)).
Definition parsed (sum : bool) (e : log_event) : option event :=
  match kind_with_code (le_code e), header_for sum e with
  | Some k, Some h => Some (mk_event k h (le_body e))
  | _, _ => None
  end.

(** ** Files *)
(** a format description event: [fd_tail] is the checksum algorithm with the four checksum bytes, present
    from MySQL 5.6.1 on *)
Record fde_spec := mk_fde_spec
  { fd_version : N; fd_server : bytes; fd_created : N; fd_header_len : N; fd_lens : bytes;
    fd_tail : option (N * bytes) }.
Definition fde_body (d : fde_spec) : bytes :=
  wle 2 (fd_version d) ++ fd_server d ++ repeat x00 (50 - length (fd_server d)) ++ wle 4 (fd_created d) ++
  wle 1 (fd_header_len d) ++ fd_lens d ++
  match fd_tail d with Some (alg, sum) => wle 1 alg ++ sum | None => [] end.
(** the table of post-header lengths has an entry per event type from code 1, and its entry for the format
    description event itself is [57 + number of entries] *)
Definition fde_ok (d : fde_spec) : Prop :=
  fd_version d < 2 ^ 16 /\ (length (fd_server d) < 50)%nat /\ no_nul (fd_server d) /\ utf8_valid (fd_server d) = true /\ fd_created d < 2 ^ 32 /\
  fd_header_len d < 2 ^ 8 /\ nth_error (fd_lens d) 14 = Some (n2b (57 + N.of_nat (length (fd_lens d)))) /\
  57 + N.of_nat (length (fd_lens d)) < 256 /\
  match fd_tail d with Some (alg, sum) => alg < 2 ^ 8 /\ length sum = 4%nat | None => True end.
Definition file_magic : bytes := [xfe; x62; x69; x6e].
(** a file: the magic number, the first event, the other events *)
Definition file_bytes (first : log_event) (rest : bytes) : bytes := file_magic ++ event_front false first ++ rest.

(** ** CRC-32 (IEEE 802.3, reflected, polynomial 0x04C11DB7), bit by bit *)
Fixpoint crc_bits (n : nat) (c : N) : N :=
  match n with
  | O => c
  | S n => crc_bits n (if N.odd c then N.lxor (c / 2) 0xEDB88320 else c / 2)
  end.
Definition crc32 (bs : bytes) : N :=
  N.lxor (fold_left (fun c b => crc_bits 8 (N.lxor c (b2n b))) bs 0xFFFFFFFF) 0xFFFFFFFF.
