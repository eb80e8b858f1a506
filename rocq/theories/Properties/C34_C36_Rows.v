(** C34, C35, C36: table maps, row events and the column values in them.
    Formats: Spec/BinlogValues.v. *)
From Coq Require Import Strings.String Lia.
From Verif Require Import Model.Base Model.BytesParser Model.Auth Model.Utf8 Model.Time Model.Decimal Model.Col Model.Row
  Model.Rows Spec.Wire Spec.BitmapSpec Spec.Temporal Spec.DecimalSpec Spec.EventBodies Spec.BinlogValues
  Proofs.BinlogValueProofs Proofs.RowsProofs.
Open Scope N_scope.

(** *** C34 *)
(** rows of write and delete events: exactly the rows logged, for all present columns and NULLs *)
Theorem C34_rows : forall tys ms present pb rows images table_id flags extra,
  map type_desc tys = map Some ms -> bitmap_of present pb -> length present = length tys ->
  N.of_nat (length tys) < 2 ^ 32 - 7 -> (In true present \/ images = []) ->
  Forall2 (row_image tys present) rows images ->
  rows_of (mk_rd2 table_id flags (N.of_nat (length extra) + 2) (rows_head extra tys ++ pb ++ concat images)) ms
  = Ok (mk_rows extra (N.of_nat (length tys)) pb (map (map cell_value) rows)).
Proof. exact rows_decode. Qed.
Print Assumptions C34_rows.
(** update events: every pair *)
Theorem C34_update_rows : forall tys ms before after bb ab rows images table_id flags extra,
  map type_desc tys = map Some ms ->
  bitmap_of before bb -> length before = length tys -> bitmap_of after ab -> length after = length tys ->
  N.of_nat (length tys) < 2 ^ 32 - 7 -> (In true before \/ In true after \/ images = []) ->
  Forall2 (fun p bs => exists b a, row_image tys before (fst p) b /\ row_image tys after (snd p) a /\ bs = b ++ a) rows images ->
  update_rows_of (mk_rd2 table_id flags (N.of_nat (length extra) + 2) (rows_head extra tys ++ bb ++ ab ++ concat images)) ms
  = Ok (mk_update_rows extra (N.of_nat (length tys)) bb ab
         (map (fun p => (map cell_value (fst p), map cell_value (snd p))) rows)).
Proof. exact update_rows_decode. Qed.
Print Assumptions C34_update_rows.
(** the events themselves: all three kinds, and the older version 1 *)
Theorem C34_rows_events : forall table_id flags extra payload,
  table_id < 2 ^ 48 -> flags < 2 ^ 16 -> N.of_nat (length extra) + 2 < 2 ^ 16 ->
  let d := mk_rd2 table_id flags (N.of_nat (length extra) + 2) payload in
  read_write_rows_v2 (rows_event_bytes table_id flags extra payload) = (Ok d, []) /\
  read_update_rows_v2 (rows_event_bytes table_id flags extra payload) = (Ok d, []) /\
  read_delete_rows_v2 (rows_event_bytes table_id flags extra payload) = (Ok d, []).
Proof. exact rows_data_read. Qed.
Print Assumptions C34_rows_events.
Theorem C34_rows_events_v1 : forall table_id flags payload, table_id < 2 ^ 48 -> flags < 2 ^ 16 ->
  let bs := wle 6 table_id ++ wle 2 flags ++ payload in let d := mk_rd1 table_id flags payload in
  read_write_rows_v1 bs = (Ok d, []) /\ read_update_rows_v1 bs = (Ok d, []) /\ read_delete_rows_v1 bs = (Ok d, []).
Proof. exact rows_v1_read. Qed.
Print Assumptions C34_rows_events_v1.
(** Finding: with no present column the loop over the rows never ends. *)
Theorem C34_no_columns_refuted : forall n ms pb more table_id flags extra,
  bitmap_of (repeat false n) pb -> N.of_nat n < 2 ^ 32 - 7 -> more <> [] ->
  rows_of (mk_rd2 table_id flags (N.of_nat (length extra) + 2) ((extra ++ wlenenc (N.of_nat n)) ++ pb ++ more)) ms = Loop.
Proof. exact rows_loop. Qed.
Print Assumptions C34_no_columns_refuted.
(** Finding: an extra-data length below its own size panics. *)
Theorem C34_extra_length_refuted : forall table_id flags len payload ms, len < 2 ->
  rows_of (mk_rd2 table_id flags len payload) ms = Panic PArith /\
  update_rows_of (mk_rd2 table_id flags len payload) ms = Panic PArith.
Proof. exact rows_extra_len. Qed.
Print Assumptions C34_extra_length_refuted.

(** a table (BIGINT, VARCHAR(20), INT, TINYINT): the third column is not logged, the unused bits of
    the bitmaps are set *)
Definition ex_tys : list sql_type := [SBigint; SVarchar 20; SInt; STinyint].
Definition ex_row1 : list cell := [CVal (LLongLong 258) (wle 8 258); CVal (LVarString (str "ab")) (x02 :: str "ab"); CAbsent; CNull].
Definition ex_row2 : list cell := [CNull; CVal (LVarString []) [x00]; CAbsent; CVal (LTiny 7) [x07]].
Definition ex_image1 : bytes := [xfc] ++ wle 8 258 ++ [x02; x61; x62].
Definition ex_image2 : bytes := [xf9; x00; x07].
Lemma forall_lt3 (P : nat -> Prop) : P 0%nat -> P 1%nat -> P 2%nat -> forall i, (i < 3)%nat -> P i.
Proof. intros H0 H1 H2 [|[|[|i]]] H; auto; lia. Qed.
Lemma forall_lt4 (P : nat -> Prop) : P 0%nat -> P 1%nat -> P 2%nat -> P 3%nat -> forall i, (i < 4)%nat -> P i.
Proof. intros H0 H1 H2 H3 [|[|[|[|i]]]] H; auto; lia. Qed.
Example C34_example :
  let present := [true; true; false; true] in let pb := [xfb] in
  map type_desc ex_tys = map Some [MLongLong; MVarString 20; MLong; MTiny] /\ bitmap_of present pb /\
  row_image ex_tys present ex_row1 ex_image1 /\ row_image ex_tys present ex_row2 ex_image2 /\
  rows_of (mk_rd2 9 1 2 (rows_head [] ex_tys ++ pb ++ ex_image1 ++ ex_image2)) [MLongLong; MVarString 20; MLong; MTiny]
  = Ok (mk_rows [] 4 pb [[LLongLong 258; LVarString (str "ab"); LNull; LNull]; [LNull; LVarString []; LNull; LTiny 7]]) /\
  rows_of (mk_rd2 9 1 2 ([x02; x00; x00])) [MTiny; MTiny] = Loop.
Proof.
  cbv zeta. split; [reflexivity|]. split.
  { split; [reflexivity|]. apply forall_lt4; reflexivity. }
  split; [|split; [|split; vm_compute; reflexivity]].
  - split; [|split; [reflexivity|]].
    + repeat constructor; cbn.
      * apply N.leb_le. reflexivity.
    + exists [xfc]. split; [split; [reflexivity|]; apply forall_lt3; reflexivity|reflexivity].
  - split; [|split; [reflexivity|]].
    + repeat constructor; cbn.
      * apply N.leb_le. reflexivity.
    + exists [xf9]. split; [split; [reflexivity|]; apply forall_lt3; reflexivity|reflexivity].
Qed.

(** *** C35 *)
Theorem C35_table_map : forall table_id flags schema table tys ms nulls, short schema -> short table ->
  utf8_valid schema = true -> utf8_valid table = true ->
  N.of_nat (length tys) < 2 ^ 32 -> N.of_nat (length (concat (map type_meta tys))) < 2 ^ 64 ->
  length nulls = ((length tys + 7) / 8)%nat -> Forall sql_type_ok tys -> map type_desc tys = map Some ms ->
  table_map_of (mk_tmd table_id flags (table_map_bytes schema table tys nulls)) = Ok (mk_table_map schema table ms nulls).
Proof. exact table_map_decodes. Qed.
Print Assumptions C35_table_map.
Theorem C35_event : forall table_id flags payload, table_id < 2 ^ 48 -> flags < 2 ^ 16 ->
  read_table_map_data (wle 6 table_id ++ wle 2 flags ++ payload) = (Ok (mk_tmd table_id flags payload), []).
Proof. exact table_map_data_read. Qed.
Print Assumptions C35_event.
(** Finding: one SET column and the table map panics; one JSON column and it is an error.  So no row
    of such a table can be decoded. *)
Theorem C35_set_refuted : forall table_id flags schema table pre pack post ms nulls, short schema -> short table ->
  utf8_valid schema = true -> utf8_valid table = true ->
  let tys := (pre ++ SSet pack :: post)%list in
  N.of_nat (length tys) < 2 ^ 32 -> N.of_nat (length (concat (map type_meta tys))) < 2 ^ 64 ->
  length nulls = ((length tys + 7) / 8)%nat -> Forall sql_type_ok pre -> map type_desc pre = map Some ms ->
  table_map_of (mk_tmd table_id flags (table_map_bytes schema table tys nulls)) = Panic PUnimplemented.
Proof.
  intros table_id flags schema table pre pack post ms nulls Hs Ht Us Ut tys Hn Hm Hl Hk Hd.
  exact (table_map_stop table_id flags schema table pre (SSet pack) post ms nulls (Panic PUnimplemented) Hs Ht Us Ut Hn Hm Hl Hk Hd
    (set_stop pack) (fun m => ltac:(discriminate))).
Qed.
Print Assumptions C35_set_refuted.
Theorem C35_json_refuted : forall table_id flags schema table pre post ms nulls, short schema -> short table ->
  utf8_valid schema = true -> utf8_valid table = true ->
  let tys := (pre ++ SJson :: post)%list in
  N.of_nat (length tys) < 2 ^ 32 -> N.of_nat (length (concat (map type_meta tys))) < 2 ^ 64 ->
  length nulls = ((length tys + 7) / 8)%nat -> Forall sql_type_ok pre -> map type_desc pre = map Some ms ->
  table_map_of (mk_tmd table_id flags (table_map_bytes schema table tys nulls)) = Err EConstraint.
Proof.
  intros table_id flags schema table pre post ms nulls Hs Ht Us Ut tys Hn Hm Hl Hk Hd.
  exact (table_map_stop table_id flags schema table pre SJson post ms nulls (Err EConstraint) Hs Ht Us Ut Hn Hm Hl Hk Hd
    json_stop (fun m => ltac:(discriminate))).
Qed.
Print Assumptions C35_json_refuted.
Example C35_example : let tys := [SBigint; SVarchar 300; SChar 765; SDecimal 10 2; SBit 12; SEnum 1; SDatetime 3] in
  Forall sql_type_ok tys /\
  table_map_of (mk_tmd 9 1 (table_map_bytes (str "db") (str "t") tys [x7e]))
  = Ok (mk_table_map (str "db") (str "t")
         [MLongLong; MVarString 300; MString 765; MNewDecimal 10 2; MBit 4 1; MEnum 1; MDateTime 3] [x7e]).
Proof.
  cbv zeta. split; [|vm_compute; reflexivity].
  repeat (apply Forall_cons; [cbn; try (apply N.ltb_lt; reflexivity); try exact I; try (left; reflexivity);
    repeat split; apply N.leb_le; reflexivity|]). apply Forall_nil.
Qed.

(** *** C36 *)
Theorem C36_values : forall ty v bs m rest, stored ty v bs -> decodes_well ty v -> type_desc ty = Some m ->
  read_binlog_value m (bs ++ rest) = (Ok v, rest).
Proof. exact value_decodes. Qed.
Print Assumptions C36_values.
(** Finding: the fraction of a TIMESTAMP is not read: it is lost, and its bytes are taken for the
    next column. *)
Theorem C36_timestamp_fraction_refuted : forall dec secs us rest, 1 <= dec <= 6 -> secs < 2 ^ 32 ->
  exists left, read_binlog_value (MTimestamp dec) ((wbe 4 secs ++ frac_bytes dec us) ++ rest)
               = (Ok (LTimestamp secs), left ++ rest) /\ left <> [].
Proof. exact timestamp_desync. Qed.
Print Assumptions C36_timestamp_fraction_refuted.
Example C36_example :
  stored (SDecimal 7 4) (LNewDecimal (mk_dec 3 4 true [120; 450000000])) (decimal_bytes 3 4 true 120 4500) /\
  decodes_well (SDecimal 7 4) (LNewDecimal (mk_dec 3 4 true [120; 450000000])) /\
  read_binlog_value (MNewDecimal 7 4) (decimal_bytes 3 4 true 120 4500 ++ [x01])
  = (Ok (LNewDecimal (mk_dec 3 4 true [120; 450000000])), [x01]) /\
  read_binlog_value MDate (wle 3 (2020 * 512 + 12 * 32 + 31)) = (Ok (LDate 2020 12 31), []) /\
  read_binlog_value (MBit 4 1) [x0a; x0b; x0c] = (Ok (LBit [x0a; x0b]), [x0c]) /\
  read_binlog_value (MTimestamp 2) [x5e; x0b; xe1; x00; x37] = (Ok (LTimestamp 1577836800), [x37]).
Proof.
  split; [|split; [cbn; discriminate|repeat split; vm_compute; reflexivity]].
  apply (st_decimal 7 4 true 120 4500); try (apply N.ltb_lt; reflexivity); try (apply N.leb_le; reflexivity).
  - split; apply N.leb_le; reflexivity.
  - split; [reflexivity|]. split; [reflexivity|]. split; [reflexivity|]. exists [120], [450000000].
    split; [reflexivity|]. split; [repeat constructor|]. repeat split; vm_compute; reflexivity.
Qed.
