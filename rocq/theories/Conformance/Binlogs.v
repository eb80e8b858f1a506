(** * The repository's recorded binlog files, read through the model

    Every file under /repo/mybin-core/data was written by a MySQL server (5.5.50 or
    5.7.30).  The model reads each one from its first byte to its last, with the
    checksums verified against the CRC-32 of the specification.  These are tests of the
    model against real server output, not proofs.  The expected kinds and values are the
    ones the tests of binlog/parser.rs name. *)
From Coq Require Import Strings.String.
From Coq Require Import List NArith ZArith Bool.
From Verif Require Import Model.Base Model.Auth Model.Time Model.Decimal Model.Event Model.EventBody Model.Col Model.Rows
  Spec.BinlogSpec Conformance.Data.
Import ListNotations.
Open Scope N_scope.

(** all events of a file after its format description event *)
Fixpoint events (fuel : nat) (p : parser_v4) (bs : bytes) : res (list event) :=
  match fuel, bs with
  | O, _ => Loop
  | _, [] => Ok []
  | S fuel, _ =>
      let '(r, bs) := parse_event crc32 p true bs in
      rbind r (fun e => rbind (events fuel p bs) (fun l => Ok (match e with Some e => e :: l | None => l end)))
  end.
Definition read_log (bs : bytes) : res (list event) :=
  let '(r, bs) := from_binlog_file bs in rbind r (fun p => events (S (length bs)) p bs).
Definition kinds (bs : bytes) : res (list event_kind) := rmap (map ev_kind) (read_log bs).
(** the payloads of the events of kind [k] *)
Definition bodies {A} (k : event_kind) (rd : parser A) (bs : bytes) : res (list A) :=
  rbind (read_log bs) (fix go l := match l with
    | [] => Ok []
    | e :: l => match event_into k rd e with
                | Ok (_, a) => rmap (cons a) (go l)
                | Err EBinlogEvent => go l
                | Err e => Err e | Panic p => Panic p | Loop => Loop
                end
    end).
(** the rows of the first event of kind [k], read with the first table map *)
Definition rows {A B} (k : event_kind) (rd : parser A) (of : A -> list column_meta -> res B) (bs : bytes) : res B :=
  rbind (bodies KTableMap read_table_map_data bs) (fun tms =>
  rbind (bodies k rd bs) (fun rs =>
  match tms, rs with
  | tm :: _, r :: _ => rbind (table_map_of tm) (fun tm => of r (tm_col_metas tm))
  | _, _ => Err EConstraint
  end)).
Definition written (bs : bytes) : res (list (list binlog_value)) := rmap r_rows (rows KWriteRowsV2 read_write_rows_v2 rows_of bs).

Ltac run_test := vm_compute; reflexivity.

(** ** Event kinds, with valid checksums throughout *)
Example start_5_7 : kinds log_5_7_30_StartEvent = Ok [KPreviousGtids; KStop]. Proof. run_test. Qed.
Example start_5_7_no_checksum : kinds log_5_7_30_StartEventNoChecksum = Ok [KPreviousGtids; KStop]. Proof. run_test. Qed.
Example query_5_7 : kinds log_5_7_30_QueryEvent = Ok [KPreviousGtids; KAnonymousGtid; KQuery]. Proof. run_test. Qed.
Example rotate_5_7 : kinds log_5_7_30_RotateEvent = Ok [KPreviousGtids; KRotate]. Proof. run_test. Qed.
Example rand_5_7 : kinds log_5_7_30_RandEvent = Ok [KPreviousGtids; KAnonymousGtid; KQuery; KIntvar; KRand; KQuery; KXid].
Proof. run_test. Qed.
Example user_var_5_7 : kinds log_5_7_30_UserVarEvent
  = Ok ([KPreviousGtids; KAnonymousGtid; KQuery] ++ repeat KUserVar 5 ++ [KQuery; KXid]). Proof. run_test. Qed.
Example begin_load_query_5_7 : kinds log_5_7_30_BeginLoadQueryEvent
  = Ok [KPreviousGtids; KAnonymousGtid; KQuery; KBeginLoadQuery; KExecuteLoadQuery; KXid]. Proof. run_test. Qed.
Example gtid_5_7 : kinds log_5_7_30_GtidEvent = Ok [KPreviousGtids; KGtid; KQuery]. Proof. run_test. Qed.
Example rows_v2_5_7 : kinds log_5_7_30_RowsEventV2
  = Ok [KPreviousGtids; KAnonymousGtid; KQuery; KTableMap; KWriteRowsV2; KTableMap; KUpdateRowsV2; KTableMap; KDeleteRowsV2; KXid].
Proof. run_test. Qed.
Example rows_v1_5_5 : kinds log_5_5_50_RowsEventV1
  = Ok [KQuery; KTableMap; KWriteRowsV1; KTableMap; KUpdateRowsV1; KTableMap; KDeleteRowsV1; KXid]. Proof. run_test. Qed.

(** ** Event payloads *)
Example tables : rbind (bodies KTableMap read_table_map_data log_5_7_30_RowsEventV2) (fun l =>
    match l with tm :: _ => rmap (fun t => (tm_schema_name t, tm_table_name t, tm_col_metas t)) (table_map_of tm) | [] => Err EConstraint end)
  = Ok (str "bintest1", str "test1", [MLong; MVarString 50]). Proof. run_test. Qed.
Example rotate_body : bodies KRotate read_rotate log_5_7_30_RotateEvent = Ok [(4, str "mysql-bin.000004")].
Proof. run_test. Qed.

(** ** Row images: binlog/parser.rs and the statements recorded in its comments *)
Example write_rows_v2 : written log_5_7_30_RowsEventV2
  = Ok [[LLong 1; LVarString (str "hello")]; [LLong 2; LVarString (str "world")]]. Proof. run_test. Qed.
Example null_row : written log_5_7_30_Null
  = Ok [[LLong 1; LNull; LLong 3; LNull; LLong 5; LNull; LLong 7; LNull; LNull]]. Proof. run_test. Qed.
Example enum_rows : written log_5_7_30_Enum = Ok (map (fun n => [LEnum (Pack1 n)]) [1; 2; 3; 4; 5]). Proof. run_test. Qed.
Example year_rows : written log_5_7_30_Year = Ok (map (fun y => [LYear y]) [0; 2001; 2069; 1970; 1999; 1901; 2155]).
Proof. run_test. Qed.
Example timestamp_row : written log_5_7_30_Timestamp = Ok [[LTimestamp 1604290466]]. Proof. run_test. Qed.
Example number_row : written log_5_7_30_Number
  = Ok [[LNewDecimal (mk_dec 10 0 false [0; 1000000]); LTiny 127; LTiny 255; LShort 16383; LShort 32767; LLong 1073741823;
         LLong 2147483647; LLongLong 18446743073709551617; LLongLong 999999999999; LInt24 262144; LInt24 16777215]].
Proof. run_test. Qed.
Example time_row : written log_5_7_30_Time
  = Ok [[LDateTime (mk_dt 2020 1 1 1 2 3 0); LLong 1; LDateTime (mk_dt 2020 1 1 1 2 3 45000); LLong 2;
         LDateTime (mk_dt 2020 1 1 1 2 3 45067); LLong 3; LTime (mk_time false 0 1 2 3 0); LLong 4;
         LTime (mk_time false 0 1 2 3 45000); LLong 5; LTime (mk_time true 0 1 2 3 45067); LLong 6]].
Proof. run_test. Qed.
Example update_rows_v2 : rmap u_rows (rows KUpdateRowsV2 read_update_rows_v2 update_rows_of log_5_7_30_RowsEventV2)
  = Ok [([LLong 2; LVarString (str "world")], [LLong 2; LVarString (str "java")])]. Proof. run_test. Qed.
Example delete_rows_v2 : rmap r_rows (rows KDeleteRowsV2 read_delete_rows_v2 rows_of log_5_7_30_RowsEventV2)
  = Ok [[LLong 2; LVarString (str "java")]]. Proof. run_test. Qed.
Example xid : bodies KXid read_xid log_5_7_30_RowsEventV2 = Ok [24]. Proof. run_test. Qed.
Example rand : bodies KRand read_rand log_5_7_30_RandEvent = Ok [(493017184, 712954748)]. Proof. run_test. Qed.
Example user_var_names : rmap (map uv_name) (bodies KUserVar read_user_var log_5_7_30_UserVarEvent)
  = Ok (map str ["myvarstr"; "myvarreal"; "myvarint"; "myvarblob"; "myvardecimal"]%string). Proof. run_test. Qed.
