(** * Independent specification: layouts of binlog event bodies

    Written from the MySQL internals manual ("Event Data for Specific Event Types") and
    libbinlogevents.  Records and constructors are the public result types of the crate. *)
From Verif Require Import Model.Base Model.EventBody Spec.Wire.
Open Scope N_scope.

(** one byte giving the length of the string that follows *)
Definition wstr1 (s : bytes) : bytes := wle 1 (N.of_nat (length s)) ++ s.
Definition short (s : bytes) : Prop := N.of_nat (length s) < 2 ^ 8.

(** ** GTID *)
(** flags, sid, gno and, from 5.7.4 on, the logical timestamps *)
Definition gtid_body (flags sid gno : N) (ts : option (N * N * N)) : bytes :=
  wle 1 flags ++ wle 16 sid ++ wle 8 gno ++
  match ts with
  | Some (ts_type, last_committed, seq_num) => wle 1 ts_type ++ wle 8 last_committed ++ wle 8 seq_num
  | None => []
  end.
(** a GTID set: per server id its half-open intervals [start, end) of transaction numbers *)
Definition interval_bytes (iv : N * N) : bytes := wle 8 (fst iv) ++ wle 8 (snd iv).
Definition range_bytes (r : N * list (N * N)) : bytes :=
  wle 16 (fst r) ++ wle 8 (N.of_nat (length (snd r))) ++ concat (map interval_bytes (snd r)).
Definition gtid_set_bytes (rs : list (N * list (N * N))) : bytes :=
  wle 8 (N.of_nat (length rs)) ++ concat (map range_bytes rs).
(** the intervals are non-empty, ordered and separated; numbering starts at 1 *)
Fixpoint intervals_ok (last : N) (ivs : list (N * N)) : Prop :=
  match ivs with
  | [] => True
  | (s, e) :: ivs => last < s /\ s < e /\ e < 2 ^ 64 /\ intervals_ok e ivs
  end.
Definition range_ok (r : N * list (N * N)) : Prop := fst r < 2 ^ 128 /\ intervals_ok 0 (snd r).
(** what a reader should get: inclusive ends *)
Definition range_value (r : N * list (N * N)) : N * gtid_range :=
  (fst r, mk_gtid_range (fst r) (map (fun iv => (fst iv, snd iv - 1)) (snd r))).
(** the transactions in a set *)
Definition in_encoded (rs : list (N * list (N * N))) (sid gno : N) : Prop :=
  exists ivs s e, In (sid, ivs) rs /\ In (s, e) ivs /\ s <= gno < e.
Definition in_decoded (m : list (N * gtid_range)) (sid gno : N) : Prop :=
  exists r s e, In (sid, r) m /\ gr_sid r = sid /\ In (s, e) (gr_intervals r) /\ s <= gno <= e.
(** the last entry of every sid *)
Fixpoint last_per_sid (rs : list (N * list (N * N))) : list (N * list (N * N)) :=
  match rs with
  | [] => []
  | r :: rs => if existsb (fun r' => fst r' =? fst r) rs then last_per_sid rs else r :: last_per_sid rs
  end.

(** ** LOAD DATA *)
(** the part both load events share: field name lengths, field names, table, schema, file *)
Definition load_names (fields : list bytes) (table schema file : bytes) : bytes :=
  map (fun f => n2b (N.of_nat (length f))) fields ++ concat (map wcstr fields) ++ wcstr table ++ wcstr schema ++ wcstr file.
Definition load_names_ok (fields : list bytes) (table schema file : bytes) : Prop :=
  Forall short fields /\ short table /\ short schema /\ no_nul table /\ no_nul schema /\ no_nul file.

(** ** status variables of query events *)
Definition status_var_bytes (v : status_var) : bytes :=
  match v with
  | SvFlags2 n => wle 1 0 ++ wle 4 n
  | SvSqlMode n => wle 1 1 ++ wle 8 n
  | SvCatalog s => wle 1 2 ++ wstr1 s ++ [x00]
  | SvAutoIncrement inc offset => wle 1 3 ++ wle 2 inc ++ wle 2 offset
  | SvCharset client conn server => wle 1 4 ++ wle 2 client ++ wle 2 conn ++ wle 2 server
  | SvTimeZone s => wle 1 5 ++ wstr1 s
  | SvCatalogNz s => wle 1 6 ++ wstr1 s
  | SvLcTimeNames n => wle 1 7 ++ wle 2 n
  | SvCharsetDatabase n => wle 1 8 ++ wle 2 n
  | SvTableMapForUpdate n => wle 1 9 ++ wle 8 n
  | SvMasterDataWritten n => wle 1 10 ++ wle 4 n
  | SvInvokers username hostname => wle 1 11 ++ wstr1 username ++ wstr1 hostname
  | SvUpdatedDbNames names => wle 1 12 ++ wle 1 (N.of_nat (length names)) ++ concat (map wcstr names)
  | SvMicroSeconds n => wle 1 13 ++ wle 3 n
  end.
Definition status_var_ok (v : status_var) : Prop :=
  match v with
  | SvFlags2 n | SvMasterDataWritten n => n < 2 ^ 32
  | SvSqlMode n | SvTableMapForUpdate n => n < 2 ^ 64
  | SvCatalog s | SvTimeZone s | SvCatalogNz s => short s
  | SvAutoIncrement a b => a < 2 ^ 16 /\ b < 2 ^ 16
  | SvCharset a b c => a < 2 ^ 16 /\ b < 2 ^ 16 /\ c < 2 ^ 16
  | SvLcTimeNames n | SvCharsetDatabase n => n < 2 ^ 16
  | SvInvokers a b => short a /\ short b
  | SvUpdatedDbNames names => N.of_nat (length names) < 254 /\ Forall no_nul names
  | SvMicroSeconds n => n < 2 ^ 24
  end.
