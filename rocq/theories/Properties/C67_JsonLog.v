(** C67: from the rows of the server that wrote a log to JSON documents with the same rows.
    The server: Spec/ServerLog.v, Spec/StoredValues.v; the documents: Spec/JsonLog.v. *)
From Coq Require Import Strings.String.
From Coq Require Import List NArith ZArith Lia Arith Bool Permutation Sorted.
From Verif Require Import Model.Base Model.BytesParser Model.Utf8 Model.Auth Model.Fmt Model.Time Model.Col Model.Row Model.Rows Model.Event Model.Stmt Model.Transform
  Spec.Wire Spec.BitmapSpec Spec.Temporal Spec.EventBodies Spec.BinlogValues Spec.SqlSpec Spec.JsonSpec Spec.Replay Spec.ServerLog Spec.StoredValues Spec.JsonLog
  Proofs.BaseLemmas Proofs.RowsProofs Proofs.BinlogValueProofs Proofs.ServerLogProofs Proofs.JsonProofs Proofs.JsonLogProofs.
Import ListNotations.
Open Scope N_scope.

(** A value: the bytes the server writes for a column are read to the last one, and the JSON value made from what was
    read is the value that the column holds; it is marked as base64 if that value is binary. *)
Theorem C67_value : forall widen fmt_f32 fmt_f64 ty unsigned x bs, json_written widen fmt_f32 fmt_f64 ty unsigned x bs ->
  exists m v j, type_desc ty = Some m /\ (forall rest, read_binlog_value m (bs ++ rest) = (Ok v, rest)) /\
    rbind (sv_of_binlog v unsigned) (to_json_value widen) = Ok (j, is_binary x) /\ as_json widen fmt_f32 fmt_f64 ty x j.
Proof. exact json_value_right. Qed.
Print Assumptions C67_value.

(** The values that come through, exactly: of everything that a column can hold, the values that [json_written] admits
    are those whose bytes are read to the last one and made into the right JSON value. *)
Theorem C67_exact : forall widen fmt_f32 fmt_f64 ty unsigned x bs,
  json_written widen fmt_f32 fmt_f64 ty unsigned x bs <->
  holds fmt_f32 fmt_f64 ty unsigned x bs /\
  exists m v j b, type_desc ty = Some m /\ (forall rest, read_binlog_value m (bs ++ rest) = (Ok v, rest)) /\
    rbind (sv_of_binlog v unsigned) (to_json_value widen) = Ok (j, b) /\ as_json widen fmt_f32 fmt_f64 ty x j.
Proof.
  intros widen fmt_f32 fmt_f64 ty unsigned x bs. split.
  - intros W. split; [exact (json_written_holds _ _ _ _ _ _ _ W)|].
    destruct (json_value_right _ _ _ _ _ _ _ W) as (m & v & j & M & R & E & A). exists m, v, j, (is_binary x). auto.
  - intros (H & C). exact (json_comes_through _ _ _ _ _ _ _ H C).
Qed.
Print Assumptions C67_exact.

(** The calls of a program that makes documents: the table map event is read ([TableMapEvent], then its table map), the
    rows event is read, its rows are decoded with the columns of the table map, and the documents are made from the rows,
    the two names in the table map and the column definitions that the server gives of the table. *)
Definition map_event (id flags : N) (t : declared) : bytes :=
  wle 6 id ++ wle 2 flags ++ table_map_bytes (dc_db t) (dc_name t) (dc_types t) (dc_nulls t).
Definition documents {A} (read : parser rows_data_v2) (decode : rows_data_v2 -> list column_meta -> res A)
    (make : bytes -> bytes -> A -> list column_def -> res (list json_row)) (map_body rows_body : bytes) (defs : list column_def) : res (list json_row) :=
  rbind (fst (read_table_map_data map_body)) (fun d => rbind (table_map_of d) (fun tm =>
  rbind (fst (read rows_body)) (fun rd => rbind (decode rd (tm_col_metas tm)) (fun rs => make (tm_schema_name tm) (tm_table_name tm) rs defs)))).

(** A server inserts rows into a table, and logs the table and the rows.  From the two events and the server's column
    definitions comes a document for each row, in order, with the names of the database and the table, no row before,
    and as the row after an object with exactly the columns of the table, each with the value it has in the row. *)
Theorem C67_insert : forall widen fmt_f32 fmt_f64 t defs mid mflags id flags extra present rows images,
  declared_ok t -> NoDup (map co_name (dc_cols t)) -> Forall2 told (dc_cols t) defs ->
  mid < 2 ^ 48 -> mflags < 2 ^ 16 -> rows_fields_ok id flags extra -> all_present t present ->
  Forall2 (json_row_written widen fmt_f32 fmt_f64 (dc_cols t)) rows images ->
  exists docs, documents read_write_rows_v2 rows_of (json_from_insert widen) (map_event mid mflags t)
      (rows_event_bytes id flags extra (rows_head extra (dc_types t) ++ present ++ concat images)) defs = Ok docs /\
    Forall2 (insert_doc widen fmt_f32 fmt_f64 t) rows docs.
Proof.
  intros until images. intros Ht Hn Hd Hm Hmf He Hp Hr.
  destruct (map_read fmt_f32 fmt_f64 mid mflags t Hm Hmf Ht) as (d & R & _ & M).
  destruct (insert_docs widen fmt_f32 fmt_f64 t defs Ht Hn Hd id flags extra present rows images He Hp Hr) as (r & docs & E1 & E2 & D).
  exists docs. split; [|exact D]. destruct He as (He1 & He2 & He3).
  destruct (rows_data_read id flags extra (rows_head extra (dc_types t) ++ present ++ concat images) He1 He2 He3) as (W & _ & _).
  unfold documents, map_event. rewrite R. cbn [rbind]. rewrite M. cbn [rbind]. rewrite W. cbn [fst rbind tm_of tm_col_metas tm_schema_name tm_table_name].
  rewrite E1. exact E2.
Qed.
Print Assumptions C67_insert.
(** The same for deletes, the row being the row before. *)
Theorem C67_delete : forall widen fmt_f32 fmt_f64 t defs mid mflags id flags extra present rows images,
  declared_ok t -> NoDup (map co_name (dc_cols t)) -> Forall2 told (dc_cols t) defs ->
  mid < 2 ^ 48 -> mflags < 2 ^ 16 -> rows_fields_ok id flags extra -> all_present t present ->
  Forall2 (json_row_written widen fmt_f32 fmt_f64 (dc_cols t)) rows images ->
  exists docs, documents read_delete_rows_v2 rows_of (json_from_delete widen) (map_event mid mflags t)
      (rows_event_bytes id flags extra (rows_head extra (dc_types t) ++ present ++ concat images)) defs = Ok docs /\
    Forall2 (delete_doc widen fmt_f32 fmt_f64 t) rows docs.
Proof.
  intros until images. intros Ht Hn Hd Hm Hmf He Hp Hr.
  destruct (map_read fmt_f32 fmt_f64 mid mflags t Hm Hmf Ht) as (d & R & _ & M).
  destruct (delete_docs widen fmt_f32 fmt_f64 t defs Ht Hn Hd id flags extra present rows images He Hp Hr) as (r & docs & E1 & E2 & D).
  exists docs. split; [|exact D]. destruct He as (He1 & He2 & He3).
  destruct (rows_data_read id flags extra (rows_head extra (dc_types t) ++ present ++ concat images) He1 He2 He3) as (_ & _ & W).
  unfold documents, map_event. rewrite R. cbn [rbind]. rewrite M. cbn [rbind]. rewrite W. cbn [fst rbind tm_of tm_col_metas tm_schema_name tm_table_name].
  rewrite E1. exact E2.
Qed.
Print Assumptions C67_delete.
(** And for updates, with the row before and the row after. *)
Theorem C67_update : forall widen fmt_f32 fmt_f64 t defs mid mflags id flags extra present_before present_after rows images,
  declared_ok t -> NoDup (map co_name (dc_cols t)) -> Forall2 told (dc_cols t) defs ->
  mid < 2 ^ 48 -> mflags < 2 ^ 16 -> rows_fields_ok id flags extra -> all_present t present_before -> all_present t present_after ->
  Forall2 (fun p bs => exists b a, json_row_written widen fmt_f32 fmt_f64 (dc_cols t) (fst p) b /\
    json_row_written widen fmt_f32 fmt_f64 (dc_cols t) (snd p) a /\ bs = b ++ a) rows images ->
  exists docs, documents read_update_rows_v2 update_rows_of (json_from_update widen) (map_event mid mflags t)
      (rows_event_bytes id flags extra (rows_head extra (dc_types t) ++ present_before ++ present_after ++ concat images)) defs = Ok docs /\
    Forall2 (update_doc widen fmt_f32 fmt_f64 t) rows docs.
Proof.
  intros until images. intros Ht Hn Hd Hm Hmf He Hp Hp' Hr.
  destruct (map_read fmt_f32 fmt_f64 mid mflags t Hm Hmf Ht) as (d & R & _ & M).
  destruct (update_docs widen fmt_f32 fmt_f64 t defs Ht Hn Hd id flags extra present_before present_after rows images He Hp Hp' Hr) as (r & docs & E1 & E2 & D).
  exists docs. split; [|exact D]. destruct He as (He1 & He2 & He3).
  destruct (rows_data_read id flags extra (rows_head extra (dc_types t) ++ present_before ++ present_after ++ concat images) He1 He2 He3) as (_ & W & _).
  unfold documents, map_event. rewrite R. cbn [rbind]. rewrite M. cbn [rbind]. rewrite W. cbn [fst rbind tm_of tm_col_metas tm_schema_name tm_table_name].
  rewrite E1. exact E2.
Qed.
Print Assumptions C67_update.

(** *** Examples: a table with an unsigned BIGINT, a VARCHAR(300) and a BLOB *)
Definition ex_w (n : N) : N := n.
Definition ex_fmt (n : N) : bytes := [].
Definition ex_cols : list column :=
  [mk_column (str "id") SBigint true true false; mk_column (str "note") (SVarchar 300) false false false; mk_column (str "data") (SBlob 2) false false false].
Definition ex_t : declared := mk_declared (str "d") (str "t") ex_cols [x06].
Definition ex_def (name : bytes) (flags : N) (ty : column_type) : column_def := mk_cd (str "def") [] [] [] name [] 63 20 ty flags 0 [].
Definition ex_defs : list column_def := [ex_def (str "id") 35 TLongLong; ex_def (str "note") 0 TVarString; ex_def (str "data") 144 TBlob].
Definition ex_row1 : row := [VInt 18446744073709551615; VText (str "it's \n"); VBinary [x00; xff]].
Definition ex_row2 : row := [VInt 7; VText []; VNull].
Definition ex_image1 : bytes := [xf8] ++ wle 8 18446744073709551615 ++ (wle 2 7 ++ str "it's \n") ++ wle 2 2 ++ [x00; xff].
Definition ex_image2 : bytes := [x04] ++ wle 8 7 ++ wle 2 0.
Definition ex_row3 : row := [VInt 7; VText (str "new"); VBinary [x01]].
Definition ex_image3 : bytes := [xf8] ++ wle 8 7 ++ (wle 2 3 ++ str "new") ++ wle 2 1 ++ [x01].
Lemma ex_bits (bs : list bool) b : length bs = 3%nat -> (forall i, (i < 3)%nat -> N.testbit (b2n b) (N.of_nat i) = nth i bs false) -> bitmap_of bs [b].
Proof. intros L H. split; [rewrite L; reflexivity|]. intros i Hi. rewrite L in Hi. destruct i as [|[|[|i]]]; [exact (H 0%nat Hi)|exact (H 1%nat Hi)|exact (H 2%nat Hi)|lia]. Qed.
Ltac ex_bitmap := apply ex_bits; [reflexivity|]; intros [|[|[|i]]] Hi; [reflexivity|reflexivity|reflexivity|lia].
Example C67_example_written : Forall2 (json_row_written ex_w ex_fmt ex_fmt ex_cols) [ex_row1; ex_row2; ex_row3] [ex_image1; ex_image2; ex_image3].
Proof.
  assert (U : forall n, n < 2 ^ 64 -> logged_int true 64 n (Z.of_N n)) by (intros n H; apply li_unsigned; [reflexivity|assumption]).
  constructor; [|constructor; [|constructor; [|constructor]]].
  - exists [xf8], [wle 8 18446744073709551615; wle 2 7 ++ str "it's \n"; wle 2 2 ++ [x00; xff]]. split; [|split; [ex_bitmap|reflexivity]].
    apply jp_value; [apply jw_same; [exact I|]; apply wr_big; apply (U 18446744073709551615); reflexivity|].
    apply jp_value; [apply (jw_varchar _ _ _ false 300); [reflexivity|discriminate|reflexivity]|].
    apply jp_value; [apply jw_same; [exact I|]; apply (wr_blob _ _ _ false 2); [lia|reflexivity]|]. apply jp_nil.
  - exists [x04], [wle 8 7; wle 2 0 ++ []; []]. split; [|split; [ex_bitmap|reflexivity]].
    apply jp_value; [apply jw_same; [exact I|]; apply wr_big; apply (U 7); reflexivity|].
    apply jp_value; [apply (jw_varchar _ _ _ false 300 []); [reflexivity|discriminate|reflexivity]|].
    apply jp_null. apply jp_nil.
  - exists [xf8], [wle 8 7; wle 2 3 ++ str "new"; wle 2 1 ++ [x01]]. split; [|split; [ex_bitmap|reflexivity]].
    apply jp_value; [apply jw_same; [exact I|]; apply wr_big; apply (U 7); reflexivity|].
    apply jp_value; [apply (jw_varchar _ _ _ false 300); [reflexivity|discriminate|reflexivity]|].
    apply jp_value; [apply jw_same; [exact I|]; apply (wr_blob _ _ _ false 2); [lia|reflexivity]|]. apply jp_nil.
Qed.
Example C67_example_table : declared_ok ex_t /\ NoDup (map co_name (dc_cols ex_t)) /\ Forall2 told (dc_cols ex_t) ex_defs /\ all_present ex_t [x07] /\ rows_fields_ok 9 1 [].
Proof.
  split; [|split; [|split; [|split]]].
  - unfold declared_ok. split; [discriminate|]. split; [reflexivity|]. split; [reflexivity|]. split; [reflexivity|]. split; [reflexivity|].
    split; [discriminate|]. split; [repeat constructor; cbn; lia|]. split; [repeat constructor|reflexivity].
  - repeat constructor; cbn; intuition discriminate.
  - repeat constructor.
  - unfold all_present. ex_bitmap.
  - repeat split.
Qed.
Example C67_example_insert : exists docs,
  documents read_write_rows_v2 rows_of (json_from_insert ex_w) (map_event 9 1 ex_t)
    (rows_event_bytes 9 1 [] (rows_head [] (dc_types ex_t) ++ [x07] ++ concat [ex_image1; ex_image2; ex_image3])) ex_defs = Ok docs /\
  Forall2 (insert_doc ex_w ex_fmt ex_fmt ex_t) [ex_row1; ex_row2; ex_row3] docs /\
  firstn 2 docs =
  [mk_json JkInsert [str "data"] (str "d") (str "t") None (Some [(str "data", JString (str "AP8=")); (str "id", JInt 18446744073709551615); (str "note", JString (str "it's \n"))]);
   mk_json JkInsert [] (str "d") (str "t") None (Some [(str "data", JNull); (str "id", JInt 7); (str "note", JString [])])].
Proof.
  destruct C67_example_table as (T1 & T2 & T3 & T4 & T5).
  destruct (C67_insert ex_w ex_fmt ex_fmt ex_t ex_defs 9 1 9 1 [] [x07] [ex_row1; ex_row2; ex_row3] [ex_image1; ex_image2; ex_image3] T1 T2 T3 ltac:(reflexivity) ltac:(reflexivity) T5 T4
    C67_example_written) as (docs & E & D).
  exists docs. split; [exact E|]. split; [exact D|]. vm_compute in E. injection E as <-. reflexivity.
Qed.
Example C67_example_update :
  documents read_update_rows_v2 update_rows_of (json_from_update ex_w) (map_event 9 1 ex_t)
    (rows_event_bytes 9 1 [] (rows_head [] (dc_types ex_t) ++ [x07] ++ [x07] ++ concat [ex_image2 ++ ex_image3])) ex_defs =
  Ok [mk_json JkUpdate [str "data"] (str "d") (str "t") (Some [(str "data", JNull); (str "id", JInt 7); (str "note", JString [])])
        (Some [(str "data", JString (str "AQ==")); (str "id", JInt 7); (str "note", JString (str "new"))])].
Proof. vm_compute. reflexivity. Qed.
(** the text that no SQL literal can carry comes through in JSON; BIT(16) 0x0102 and the zero date do not *)
Example C67_example_exact :
  json_written ex_w ex_fmt ex_fmt (SVarchar 20) false (VText (str "50\n")) (x04 :: str "50\n") /\
  (holds ex_fmt ex_fmt (SBit 16) false (VInt 258) [x01; x02] /\ ~ json_written ex_w ex_fmt ex_fmt (SBit 16) false (VInt 258) [x01; x02]) /\
  (holds ex_fmt ex_fmt SDate false (VText (str "0000-00-00")) [x00; x00; x00] /\ ~ json_written ex_w ex_fmt ex_fmt SDate false (VText (str "0000-00-00")) [x00; x00; x00]).
Proof.
  split; [apply (jw_varchar _ _ _ false 20 (str "50\n")); [reflexivity|discriminate|reflexivity]|]. split; split.
  - apply (hd_bit _ _ false 16 258); [split; discriminate|reflexivity].
  - intros W. inversion W as [? ? ? ? _ W'| | | |]; subst. inversion W'; subst. discriminate.
  - apply (hd_date _ _ false 0 0 0); discriminate.
  - intros W. apply C67_value in W as (m & v & j & D & R & L & _). injection D as <-. specialize (R []). vm_compute in R. injection R as <-. discriminate L.
Qed.
