(** * Independent specification: how a MySQL server reads a command packet

    Written from the MySQL protocol documentation ("Command Phase", "Replication
    Protocol").  The first byte selects the command; the decoder below must use up
    the packet. *)
From Coq Require Import List NArith ZArith Arith Bool.
From Verif Require Import Model.Base Model.Cmd Spec.Wire Spec.Packets.
Import ListNotations.
Open Scope N_scope.

(** A GTID set as sent with COM_BINLOG_DUMP_GTID: source ids with intervals
    (start inclusive, end exclusive). *)
Definition gtid_set := list (N * list (Z * Z)).

Inductive request : Type :=
| RqQuit
| RqInitDb (db : bytes)
| RqQuery (sql : bytes)
| RqFieldList (table wildcard : bytes)
| RqCreateDb (db : bytes)
| RqDropDb (db : bytes)
| RqRefresh (flags : N)
| RqStatistics
| RqProcessInfo
| RqProcessKill (id : N)
| RqDebug
| RqPing
| RqChangeUser (user auth db : bytes) (charset : N) (plugin : option bytes) (attrs : option (list (bytes * bytes)))
| RqBinlogDump (pos flags server_id : N) (filename : bytes)
| RqTableDump (db table : bytes)
| RqRegisterSlave (server_id : N) (host user password : bytes) (port rank master_id : N)
| RqStmtPrepare (sql : bytes)
| RqStmtClose (id : N)
| RqStmtReset (id : N)
| RqSetOption (multi_statements : bool)
| RqStmtFetch (id n_rows : N)
| RqBinlogDumpGtid (flags server_id : N) (filename : bytes) (pos : N) (sids : gtid_set)
| RqResetConnection.

(** a string preceded by its length in one byte *)
Definition dstr1 : dec bytes := n <-- dle 1 ;; dbytes (N.to_nat n).
(** a string preceded by its length in four bytes *)
Definition dstr4 : dec bytes := n <-- dle 4 ;; dbytes (N.to_nat n).
(** two's complement *)
Definition dsle (k : nat) : dec Z :=
  n <-- dle k ;;
  let m := 256 ^ N.of_nat k in
  dret (if n * 2 <? m then Z.of_N n else (Z.of_N n - Z.of_N m)%Z).
Fixpoint dlist {A} (n : nat) (d : dec A) : dec (list A) :=
  match n with O => dret [] | S n => a <-- d ;; l <-- dlist n d ;; dret (a :: l) end.

(** 8 byte number of sids; per sid 16 bytes of id, 8 byte number of intervals,
    8 byte start and end each *)
Definition dgtids : dec gtid_set :=
  n <-- dle 8 ;;
  dlist (N.to_nat n)
    (sid <-- dle 16 ;; k <-- dle 8 ;;
     ivs <-- dlist (N.to_nat k) (s <-- dsle 8 ;; e <-- dsle 8 ;; dret (s, e)) ;;
     dret (sid, ivs)).
(** a decoder run on a block of its own *)
Definition dwithin {A} (block : bytes) (d : dec A) : dec A := fun bs =>
  match d block with Some (a, []) => Some (a, bs) | _ => None end.

(** MYSQL_OPTION_MULTI_STATEMENTS_ON is 0, MYSQL_OPTION_MULTI_STATEMENTS_OFF is 1 *)
Definition multi_statements_option (n : N) : option bool :=
  match n with 0 => Some true | 1 => Some false | _ => None end.

Definition dchange_user (cap : N) : dec request :=
  user <-- dcstr ;;
  auth <-- (if cap_secure_connection cap then dstr1 else dcstr) ;;
  db <-- dcstr ;;
  charset <-- dle 2 ;;
  plugin <-- dopt (cap_plugin_auth cap) dcstr ;;
  attrs <-- dopt (cap_connect_attrs cap) dattrs ;;
  dret (RqChangeUser user auth db charset plugin attrs).

Definition darguments (cap code : N) : dec request :=
  match code with
  | 0x01 => dret RqQuit
  | 0x02 => db <-- drest ;; dret (RqInitDb db)
  | 0x03 => sql <-- drest ;; dret (RqQuery sql)
  | 0x04 => table <-- dcstr ;; w <-- drest ;; dret (RqFieldList table w)
  | 0x05 => db <-- drest ;; dret (RqCreateDb db)
  | 0x06 => db <-- drest ;; dret (RqDropDb db)
  | 0x07 => f <-- dle 1 ;; dret (RqRefresh f)
  | 0x09 => dret RqStatistics
  | 0x0a => dret RqProcessInfo
  | 0x0c => id <-- dle 4 ;; dret (RqProcessKill id)
  | 0x0d => dret RqDebug
  | 0x0e => dret RqPing
  | 0x11 => dchange_user cap
  | 0x12 => pos <-- dle 4 ;; flags <-- dle 2 ;; id <-- dle 4 ;; f <-- drest ;; dret (RqBinlogDump pos flags id f)
  | 0x13 => db <-- dstr1 ;; t <-- dstr1 ;; dret (RqTableDump db t)
  | 0x15 =>
      id <-- dle 4 ;; h <-- dstr1 ;; u <-- dstr1 ;; p <-- dstr1 ;; port <-- dle 2 ;; rank <-- dle 4 ;;
      master <-- dle 4 ;; dret (RqRegisterSlave id h u p port rank master)
  | 0x16 => sql <-- drest ;; dret (RqStmtPrepare sql)
  | 0x19 => id <-- dle 4 ;; dret (RqStmtClose id)
  | 0x1a => id <-- dle 4 ;; dret (RqStmtReset id)
  | 0x1b => n <-- dle 2 ;; match multi_statements_option n with Some b => dret (RqSetOption b) | None => dfail end
  | 0x1c => id <-- dle 4 ;; n <-- dle 4 ;; dret (RqStmtFetch id n)
  | 0x1e =>
      flags <-- dle 2 ;; id <-- dle 4 ;; f <-- dstr4 ;; pos <-- dle 8 ;; block <-- dstr4 ;;
      sids <-- dwithin block dgtids ;; dret (RqBinlogDumpGtid flags id f pos sids)
  | 0x1f => dret RqResetConnection
  | _ => dfail
  end.

(** the request a server sees in a packet *)
Definition server_request (cap : N) (packet : bytes) : option request :=
  match (code <-- dle 1 ;; r <-- darguments cap code ;; _ <-- dend ;; dret r) packet with
  | Some (r, _) => Some r
  | None => None
  end.

(** ranges of the fields *)
Definition i64 (z : Z) : Prop := (- 2 ^ 63 <= z < 2 ^ 63)%Z.
Definition gtid_set_ok (l : gtid_set) : Prop :=
  Forall (fun '(sid, ivs) => sid < 2 ^ 128 /\ Forall (fun '(s, e) => i64 s /\ i64 e) ivs) l.
(** bytes a GTID set takes: 8, and 24 per sid, and 16 per interval *)
Fixpoint gtid_set_size (l : gtid_set) : N :=
  match l with [] => 8 | (_, ivs) :: l => 24 + 16 * N.of_nat (length ivs) + gtid_set_size l end.

(** a string cut at its length modulo 256 *)
Definition cut256 (s : bytes) : bytes := firstn (N.to_nat (N.of_nat (length s) mod 256)) s.

(** the GTID set of a request built with the library *)
Definition gtids (l : list sid_range) : gtid_set := map (fun s => (sid_id s, sid_intervals s)) l.
