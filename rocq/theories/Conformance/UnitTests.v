(** * The literals of the repository's own unit tests, run through the model

    These are tests, not proofs: they tie the model to the inputs and outputs the
    authors of the code wrote down, each next to the test it transcribes.  Tests that
    only print a value are given the value the model computes. *)
From Coq Require Import Strings.String.
From Coq Require Import List NArith ZArith Bool.
From Verif Require Import Model.Base Model.BytesParser Model.LenEnc Model.Utf8 Model.Bitmap Model.Flags Model.Fmt Model.Time
  Model.Decimal Model.Col Model.Packet Model.Cmd Model.Stmt Model.Auth Spec.BinlogSpec Conformance.Data.
Import ListNotations.
Open Scope N_scope.

Local Notation b l := (map n2b l).

(** ** bytes-parser/src/lib.rs:456-735: a value is read, the next read fails, and the
    value is written back as the bytes it was read from *)
Definition reads_once {A} (rd : parser A) (wr : A -> bytes) (input : bytes) (v : A) (rest : bytes) : Prop :=
  rd input = (Ok v, rest) /\ (exists e, fst (rd rest) = Err e) /\ input = wr v ++ rest.
Ltac run_test := split; [vm_compute; reflexivity | split; [eexists; vm_compute; reflexivity | vm_compute; reflexivity]].

Example test_u8 : reads_once read_u8 write_u8 (b [1]) 1 []. Proof. run_test. Qed.
Example test_i8 : reads_once read_i8 write_i8 (b [236]) (-20)%Z []. Proof. run_test. Qed.
Example test_le_u16 : reads_once read_le_u16 write_le_u16 (b [1; 2; 3]) (1 + 2 * 2 ^ 8) (b [3]). Proof. run_test. Qed.
Example test_be_u16 : read_be_u16 (b [1; 2; 3]) = (Ok (2 ^ 8 + 2), b [3]). Proof. reflexivity. Qed.
Example test_le_i16 : reads_once read_le_i16 write_le_i16 (b [56; 255]) (-200)%Z []. Proof. run_test. Qed.
Example test_be_i16 : read_be_i16 (b [255; 56]) = (Ok (-200)%Z, []). Proof. reflexivity. Qed.
Example test_le_u24 : reads_once read_le_u24 write_le_u24 (b [1; 2; 3; 4]) (1 + 2 * 2 ^ 8 + 3 * 2 ^ 16) (b [4]). Proof. run_test. Qed.
Example test_be_u24 : read_be_u24 (b [1; 2; 3; 4]) = (Ok (2 ^ 16 + 2 * 2 ^ 8 + 3), b [4]). Proof. reflexivity. Qed.
Example test_le_i24 : reads_once read_le_i24 write_le_i24 (b [0xc0; 0xf2; 0xfc]) (-200000)%Z []. Proof. run_test. Qed.
Example test_le_u32 : reads_once read_le_u32 write_le_u32 (b [1; 2; 3; 4; 5]) (1 + 2 * 2 ^ 8 + 3 * 2 ^ 16 + 4 * 2 ^ 24) (b [5]).
Proof. run_test. Qed.
Example test_le_i32 : reads_once read_le_i32 write_le_i32 (b [0x00; 0xd3; 0xce; 0xfe]) (-20000000)%Z []. Proof. run_test. Qed.
Example test_le_u48 : reads_once read_le_u48 write_le_u48 (b [1; 2; 3; 4; 1; 2; 3; 4])
  (1 + 2 * 2 ^ 8 + 3 * 2 ^ 16 + 4 * 2 ^ 24 + 2 ^ 32 + 2 * 2 ^ 40) (b [3; 4]). Proof. run_test. Qed.
Example test_le_i48 : reads_once read_le_i48 write_le_i48 (b [0x00; 0x6c; 0xca; 0x88; 0xff; 0xff]) (-2000000000)%Z []. Proof. run_test. Qed.
Example test_le_u64 : reads_once read_le_u64 write_le_u64 (b [1; 2; 3; 4; 1; 2; 3; 4; 1; 2; 3; 4])
  (1 + 2 * 2 ^ 8 + 3 * 2 ^ 16 + 4 * 2 ^ 24 + 2 ^ 32 + 2 * 2 ^ 40 + 3 * 2 ^ 48 + 4 * 2 ^ 56) (b [1; 2; 3; 4]). Proof. run_test. Qed.
Example test_le_i64 : reads_once read_le_i64 write_le_i64
  (b [0x0; 0x30; 0x12; 0x6f; 0xd1; 0xff; 0xff; 0xff]) (-200000000000)%Z []. Proof. run_test. Qed.
Example test_le_u128 : reads_once read_le_u128 write_le_u128
  (write_le_u128 200000000000200000000000) 200000000000200000000000 []. Proof. run_test. Qed.
Example test_le_i128 : reads_once read_le_i128 write_le_i128
  (write_le_i128 (-200000000000200000000000)%Z) (-200000000000200000000000)%Z []. Proof. run_test. Qed.

(** ** bytes-parser/src/my.rs:250-390 *)
Definition lei_test (input : bytes) (v : len_enc_int) : Prop :=
  read_len_enc_int input = (Ok v, []) /\ lei_write v = input.
Example test_len_enc_int_1 : lei_test (b [0x0a]) (Len1 0x0a). Proof. split; reflexivity. Qed.
Example test_len_enc_int_3 : lei_test (b [0xfc; 0xfd; 0x00]) (Len3 0xfd) /\ lei_test (b [0xfc; 0x1d; 0x05]) (Len3 0x051d).
Proof. split; split; reflexivity. Qed.
Example test_len_enc_int_4 : lei_test (b [0xfd; 0xc2; 0xb2; 0xa2]) (Len4 0xa2b2c2). Proof. split; reflexivity. Qed.
Example test_len_enc_int_8 : lei_test (b [0xfe; 0x0d; 0x0c; 0x0b; 0x0a; 0x04; 0x03; 0x02; 0x01]) (Len9 0x010203040a0b0c0d).
Proof. split; reflexivity. Qed.
Example test_len_enc_int_err : lei_test (b [0xff]) LeiErr. Proof. split; reflexivity. Qed.
Example test_len_enc_int_null : lei_test (b [0xfb]) LeiNull. Proof. split; reflexivity. Qed.
Example test_len_enc_str :
  read_len_enc_str (n2b 5 :: str "hello") = (Ok (LesBytes (str "hello")), []) /\
  les_write (LesBytes (str "hello")) = n2b 5 :: str "hello". Proof. split; vm_compute; reflexivity. Qed.
Example test_bytes_len_enc_str_invalid : exists e, fst (read_len_enc_str (n2b 5 :: str "hell")) = Err e.
Proof. eexists; vm_compute; reflexivity. Qed.

(** ** mybin-core/src/bitmap.rs:77-108 *)
Definition ones (l : res (list bool)) : option nat :=
  match l with Ok l => Some (List.length (filter (fun x => x) l)) | _ => None end.
Example test_bitmap_to_iter :
  ones (bm_to_iter (b [0]) 0) = Some 0%nat /\ ones (bm_to_iter (b [0xff]) 0) = Some 8%nat /\
  ones (bm_to_iter (b [0; 0; 0]) 0) = Some 0%nat /\ ones (bm_to_iter (b [0xff; 0xff; 0xff]) 0) = Some 24%nat.
Proof. repeat split; vm_compute; reflexivity. Qed.
Example test_bitmap_from_iter :
  bm_from_iter [true; false; true; false] 0 = b [5] /\ bm_from_iter [true; false; true; false] 2 = b [20].
Proof. split; vm_compute; reflexivity. Qed.

(** ** mybin-core/src/flag.rs:103-107 *)
Example test_check_status_flag : from_bits all_status 0x966 = Some 0x966. Proof. vm_compute; reflexivity. Qed.

(** ** mybin-core/src/util.rs:123-127: the checksum of the specification is the one the code uses *)
Example test_checksum_iso_3309 : crc32 (str "hello") = 907060870 /\ crc32 (str "world") = 980881731.
Proof. split; vm_compute; reflexivity. Qed.

(** ** mybin-core/src/decimal.rs:207-229 *)
Example test_read_decimal_positive :
  let d := mk_dec 10 4 false [1; 234567890; 123400000] in
  read_decimal 10 4 (b [0x81; 0x0d; 0xfb; 0x38; 0xd2; 0x04; 0xd2]) = (Ok d, []) /\ fmt_decimal d = Ok (str "1234567890.1234").
Proof. split; vm_compute; reflexivity. Qed.
Example test_read_decimal_negative :
  let d := mk_dec 10 4 true [1; 234567890; 123400000] in
  read_decimal 10 4 (b [0x7e; 0xf2; 0x04; 0xc7; 0x2d; 0xfb; 0x2d]) = (Ok d, []) /\ fmt_decimal d = Ok (str "-1234567890.1234").
Proof. split; vm_compute; reflexivity. Qed.

(** ** mybin-core/src/col.rs:1064-1360 *)
Example test_read_binlog_int24_negative :
  rbind (fst (read_binlog_value MInt24 (b [78; 160; 254]))) (fun v => rmap sv_val (sv_of_binlog v false))
  = Ok (BLong (to_unsigned 32 (-90034))). Proof. vm_compute; reflexivity. Qed.
Example test_read_binlog_int24_positive :
  rbind (fst (read_binlog_value MInt24 (b [186; 84; 1]))) (fun v => rmap sv_val (sv_of_binlog v true)) = Ok (BLong 87226).
Proof. vm_compute; reflexivity. Qed.
Example test_read_binlog_date : read_binlog_value MDate (b [159; 201; 15]) = (Ok (LDate 2020 12 31), []).
Proof. vm_compute; reflexivity. Qed.
Example test_read_binlog_datetime :
  read_binlog_value (MDateTime 0) (b [153; 165; 66; 16; 131]) = (Ok (LDateTime (mk_dt 2020 1 1 1 2 3 0)), []) /\
  read_binlog_value (MDateTime 3) (b [153; 165; 66; 16; 131; 1; 194]) = (Ok (LDateTime (mk_dt 2020 1 1 1 2 3 45000)), []) /\
  read_binlog_value (MDateTime 6) (b [153; 165; 66; 16; 131; 0; 176; 11]) = (Ok (LDateTime (mk_dt 2020 1 1 1 2 3 45067)), []).
Proof. repeat split; vm_compute; reflexivity. Qed.
Example test_read_binlog_time :
  read_binlog_value (MTime2 0) (b [128; 16; 131]) = (Ok (LTime (mk_time false 0 1 2 3 0)), []) /\
  read_binlog_value (MTime2 3) (b [128; 16; 131; 1; 194]) = (Ok (LTime (mk_time false 0 1 2 3 45000)), []) /\
  read_binlog_value (MTime2 6) (b [127; 239; 124; 255; 79; 245]) = (Ok (LTime (mk_time true 0 1 2 3 45067)), []).
Proof. repeat split; vm_compute; reflexivity. Qed.
Example read_binlog_year :
  map (fun n => fst (read_binlog_value MYear (b [n]))) [0x00; 0x65; 0xa9; 0x46; 0x63; 0x01; 0xff]
  = map (fun y => Ok (LYear y)) [0; 2001; 2069; 1970; 1999; 1901; 2155]. Proof. vm_compute; reflexivity. Qed.
Example read_binlog_timestamp :
  read_binlog_value (MTimestamp 0) (b [95; 159; 135; 162]) = (Ok (LTimestamp 1604290466), []) /\
  from_timestamp 1604290466 = mk_ndt (mk_nd 2020 11 2) (mk_nt 4 14 26 0). Proof. split; vm_compute; reflexivity. Qed.
Example test_read_write_binary_time :
  read_binary_value TTime2 (write_binary_value (BTime (mk_time true 1 2 3 4 5))) = (Ok (BTime (mk_time true 1 2 3 4 5)), []).
Proof. vm_compute; reflexivity. Qed.
Example test_read_write_binary_datetime :
  Forall (fun t => read_binary_value TDateTime2 (write_binary_value (BDateTime t)) = (Ok (BDateTime t), []))
    [mk_dt 2020 8 1 0 0 0 0; mk_dt 2020 8 1 2 3 4 0; mk_dt 2020 8 1 2 3 4 5].
Proof. repeat constructor. Qed.

(** ** mybin-core/src/time.rs:330-334 *)
Example test_time_from_text : time_from_text (str "01:02:03.004") = Ok (mk_time false 0 1 2 3 4000).
Proof. vm_compute; reflexivity. Qed.

(** ** mybin-core/src/packet.rs:234-269 and handshake.rs:227-247 *)
Example test_packet : read_packet packet_dat = (Ok (mk_packet (blen packet_dat - 4) 0 (skipn 4 packet_dat)), []).
Proof. vm_compute; reflexivity. Qed.
Example test_ok_packet :
  read_ok_packet PROTOCOL_41 (b [0; 0; 0; 2; 0; 0; 0]) = (Ok (mk_ok 0 0 0 2 0 [] []), []).
Proof. vm_compute; reflexivity. Qed.
Example test_err_packet :
  let message := str "Slave can not handle replication events with the checksum that master is configured to log; the first event 'mysql-bin.000001' at 4, the last event read from './mysql-bin.000001' at 123, the last byte read from './mysql-bin.000001' at 123." in
  read_err_packet PROTOCOL_41 true (b [255; 212; 4; 35; 72; 89; 48; 48; 48] ++ message)
  = (Ok (mk_err 255 1236 35 (str "HY000") message), []).
Proof. vm_compute; reflexivity. Qed.
Example test_read_handshake_packet :
  let h := fst (read_initial_handshake (skipn 4 packet_dat)) in
  rmap hs_server_version h = Ok (str "5.7.30-log") /\ rmap hs_plugin h = Ok (str "mysql_native_password") /\
  rbind h (fun h => match from_bits all_capabilities (hs_capabilities h) with Some _ => Ok tt | None => Err EConstraint end) = Ok tt.
Proof. repeat split; vm_compute; reflexivity. Qed.

(** ** mybin-core/src/cmd/binlog_dump.rs:321-369 *)
Example test_binlog_dump_cmd :
  read_binlog_dump (write_binlog_dump
    (bd_set_server_id 123 (bd_non_block true (bd_set_pos 4 (bd_set_filename (str "mysql-bin.000001") default_binlog_dump)))))
  = (Ok (mk_bd CmdBinlogDump 4 1 123 (str "mysql-bin.000001")), []).
Proof. vm_compute; reflexivity. Qed.
Example test_binlog_dump_gtid_cmd :
  read_binlog_dump_gtid (write_binlog_dump_gtid
    (bg_sid (mk_sid 456 [(1, 5)%Z]) (bg_use_gtid true (bg_set_server_id 123 (bg_non_block true (bg_set_pos 4
       (bg_set_filename (str "mysql-bin.000001") default_binlog_dump_gtid)))))))
  = (Ok (mk_bdg CmdBinlogDumpGtid (N.lor BD_NON_BLOCK BD_THROUGH_GTID) 123 (str "mysql-bin.000001") 4 [mk_sid 456 [(1, 5)%Z]]), []).
Proof. vm_compute; reflexivity. Qed.

(** ** mybin-core/src/stmt.rs:623-793.  The two float arguments print through Rust's
    [Display], a parameter of the model: here it maps every float to "1". *)
Definition one : N -> bytes := fun _ => str "1".
Definition to_col_test (a : arg) (v : binary_value) (lit : string) (quote : bool) : Prop :=
  sv_val (to_col a) = v /\ to_sql_literal one one (to_col a) = Ok (str lit, quote).
Example test_stmt_column_values :
  to_col_test (AI8 (-1)) (BTiny 255) "-1" false /\ to_col_test (AU8 1) (BTiny 1) "1" false /\
  to_col_test (AI16 (-1)) (BShort 65535) "-1" false /\ to_col_test (AU16 1) (BShort 1) "1" false /\
  to_col_test (AI32 (-1)) (BLong 4294967295) "-1" false /\ to_col_test (AU32 1) (BLong 1) "1" false /\
  to_col_test (AI64 (-1)) (BLongLong 18446744073709551615) "-1" false /\ to_col_test (AU64 1) (BLongLong 1) "1" false /\
  to_col_test (ADecimal (str "1")) (BNewDecimal (str "1")) "1" false /\
  to_col_test (AF32 0x3f800000) (BFloat 0x3f800000) "1" false /\
  to_col_test (AF64 0x3ff0000000000000) (BDouble 0x3ff0000000000000) "1" false /\
  to_col_test (ADate (mk_nd 2020 12 31)) (BDate 2020 12 31) "2020-12-31" true /\
  to_col_test (AMyTime (mk_time false 0 1 2 3 4)) (BTime (mk_time false 0 1 2 3 4)) "01:02:03.000004" true /\
  to_col_test (ANaiveDateTime (mk_ndt (mk_nd 2020 12 31) (mk_nt 1 2 3 4000))) (BDateTime (mk_dt 2020 12 31 1 2 3 4))
    "2020-12-31 01:02:03.000004" true /\
  to_col_test (AMyYear 2020) (BYear 2020) "2020" false /\
  to_col_test (AString (str "hello, world")) (BVarString (str "hello, world")) "hello, world" true /\
  to_col_test (AMyBit (b [1])) (BBit (b [1])) "1" false /\
  to_col_test (ABool true) (BTiny 1) "1" false /\
  to_col_test (AMyDateTime (mk_dt 2020 12 31 1 2 3 0)) (BDateTime (mk_dt 2020 12 31 1 2 3 0)) "2020-12-31 01:02:03" true /\
  to_col_test (AVec (b [1; 2; 3])) (BBlob (b [1; 2; 3])) "x'010203'" false.
Proof. repeat split; vm_compute; reflexivity. Qed.
