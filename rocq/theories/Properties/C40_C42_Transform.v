(** C40 to C42: SQL and JSON made from logged rows.
    MySQL's lexer, the SQL value of a logged value and statements: Spec/SqlSpec.v; JSON: Spec/JsonSpec.v. *)
From Coq Require Import Strings.String Lia Permutation Sorted.
From Verif Require Import Model.Base Model.Utf8 Model.Auth Model.Fmt Model.Time Model.Decimal Model.Col Model.Rows Model.Stmt Model.Transform
  Spec.Nums Spec.Temporal Spec.DecimalSpec Spec.BitmapSpec Spec.SqlSpec Spec.JsonSpec
  Proofs.SqlProofs Proofs.SqlStmtProofs Proofs.SqlFindings Proofs.JsonProofs Proofs.TextExact.
Open Scope N_scope.

(** *** C40 *)
(** the literal of a logged value is read by MySQL as that value, with backslash escapes on
    ([esc = true], the default) and off; [expressible] excludes the findings below *)
Theorem C40_literal : forall fmt_f32 fmt_f64 esc unsigned v x, logged fmt_f32 fmt_f64 unsigned v x -> expressible esc v ->
  exists s ts, rbind (sv_of_binlog v unsigned) (param_text fmt_f32 fmt_f64) = Ok s /\ value_tokens x ts /\ reads_as esc s ts.
Proof.
  intros fmt_f32 fmt_f64 esc unsigned v x L X. destruct (literal_reads fmt_f32 fmt_f64 esc unsigned v x L X) as (sv & s & ts & E1 & E2 & E3 & E4).
  exists s, ts. rewrite E1. exact (conj E2 (conj E3 E4)).
Qed.
Print Assumptions C40_literal.
(** A text is read back as itself if and only if [plain_text] holds of it: it is UTF-8, with escapes on a backslash stands
    only before % or _, and next to a quote every byte is ASCII. *)
Theorem C40_text_exact : forall fmt_f32 fmt_f64 esc bs unsigned v, v = LVarString bs \/ v = LString bs ->
  ((exists s, rbind (sv_of_binlog v unsigned) (param_text fmt_f32 fmt_f64) = Ok s /\ reads_as esc s [TkText bs]) <-> plain_text esc bs).
Proof.
  intros fmt_f32 fmt_f64 esc bs unsigned v Hv. split.
  - intros (s & L & R). assert (L2 : exists t, lit_string bs = Ok t /\ s = str "'" ++ t ++ str "'").
    { destruct Hv as [-> | ->]; cbn [sv_of_binlog rbind] in L; unfold param_text, to_sql_literal in L; cbn [sv_val new_varstring] in L;
        (destruct (lit_string bs) as [t| | |]; cbn [rmap rbind fst snd] in L; try discriminate; injection L as <-; exists t; split; reflexivity). }
    destruct L2 as (t & E & ->). exact (text_exact esc bs t E R).
  - intros P. assert (L : logged fmt_f32 fmt_f64 unsigned v (VText bs)) by (destruct Hv as [-> | ->]; constructor).
    assert (X : expressible esc v) by (destruct Hv as [-> | ->]; exact P).
    destruct (C40_literal fmt_f32 fmt_f64 esc unsigned v _ L X) as (s & ts & E & V & R). cbn [value_tokens] in V. subst ts. exists s. split; assumption.
Qed.
Print Assumptions C40_text_exact.
(** Finding: in a text with a quote every byte from 128 on becomes two bytes (read as Latin-1) *)
Theorem C40_quote_refuted : forall fmt_f32 fmt_f64 esc bs unsigned, In quote bs -> (esc = true -> ~ In backslash bs) ->
  exists s, rbind (sv_of_binlog (LVarString bs) unsigned) (param_text fmt_f32 fmt_f64) = Ok s /\ reads_as esc s [TkText (latin1 bs)] /\
    ((exists b, In b bs /\ 128 <= b2n b) -> latin1 bs <> bs).
Proof.
  intros fmt_f32 fmt_f64 esc bs unsigned Hq Hb. destruct (text_with_quote fmt_f32 fmt_f64 esc bs unsigned Hq Hb) as (s & E & R).
  exists s. exact (conj E (conj R (latin1_differs bs))).
Qed.
Print Assumptions C40_quote_refuted.
(** Finding: backslashes are not escaped. A text that ends in one gives a literal that does not end. *)
Theorem C40_backslash_refuted : forall fmt_f32 fmt_f64 bs unsigned rest,
  utf8_valid (bs ++ [backslash]) = true -> ~ In quote bs -> ~ In backslash bs -> ~ In quote rest ->
  exists s, rbind (sv_of_binlog (LVarString (bs ++ [backslash])) unsigned) (param_text fmt_f32 fmt_f64) = Ok s /\ lex true (s ++ rest) = None.
Proof. exact trailing_backslash. Qed.
Print Assumptions C40_backslash_refuted.
(** Finding: in a text that starts with a backslash and a quote, the rest is read as SQL. *)
Theorem C40_injection_refuted : forall fmt_f32 fmt_f64 payload unsigned rest,
  Forall (fun b => b2n b < 128) payload -> ~ In quote payload -> payload <> [] ->
  exists s, rbind (sv_of_binlog (LVarString (backslash :: quote :: payload)) unsigned) (param_text fmt_f32 fmt_f64) = Ok s /\
    lex true (s ++ rest) = option_map (cons (TkText [quote])) (lex true (payload ++ str "'" ++ rest)).
Proof. exact injection. Qed.
Print Assumptions C40_injection_refuted.
(** Finding: text that is not UTF-8 panics (without a quote in it) *)
Theorem C40_not_utf8_refuted : forall fmt_f32 fmt_f64 bs unsigned, utf8_valid bs = false -> ~ In quote bs ->
  rbind (sv_of_binlog (LVarString bs) unsigned) (param_text fmt_f32 fmt_f64) = Panic PUnwrap.
Proof. exact invalid_utf8. Qed.
Print Assumptions C40_not_utf8_refuted.
(** Finding: BIT values are stored with the high byte first, the literal takes the low byte first;
    more than 64 bits panic. *)
Theorem C40_bit_refuted : forall fmt_f32 fmt_f64 esc bs unsigned,
  ((length bs <= 8)%nat -> exists s ts, rbind (sv_of_binlog (LBit bs) unsigned) (param_text fmt_f32 fmt_f64) = Ok s /\
     value_tokens (VInt (Z.of_N (le_val bs))) ts /\ reads_as esc s ts) /\
  ((8 < length bs)%nat -> rbind (sv_of_binlog (LBit bs) unsigned) (param_text fmt_f32 fmt_f64) = Panic PArith).
Proof. intros. exact (conj (bit_order fmt_f32 fmt_f64 esc bs unsigned) (bit_wide fmt_f32 fmt_f64 bs unsigned)). Qed.
Print Assumptions C40_bit_refuted.
(** Finding: the fraction of a second of a DATETIME is lost. *)
Theorem C40_fraction_refuted : forall fmt_f32 fmt_f64 esc t unsigned, calendar_date (dt_year t) (dt_month t) (dt_day t) ->
  dt_hour t < 24 -> dt_minute t < 60 -> dt_second t < 60 -> dt_micro t < 1000000 ->
  exists s, rbind (sv_of_binlog (LDateTime t) unsigned) (param_text fmt_f32 fmt_f64) = Ok s /\
    reads_as esc s [TkText (text_datetime (mk_dt (dt_year t) (dt_month t) (dt_day t) (dt_hour t) (dt_minute t) (dt_second t) 0))].
Proof. exact datetime_fraction. Qed.
Print Assumptions C40_fraction_refuted.
(** Finding: dates that MySQL can store but that are not in the calendar (0000-00-00, 2020-00-00,
    2020-02-30) panic. *)
Theorem C40_zero_date_refuted : forall fmt_f32 fmt_f64 unsigned,
  (forall y m d, ~ (1 <= m <= 12 /\ 1 <= d <= month_days y m) ->
     rbind (sv_of_binlog (LDate y m d) unsigned) (param_text fmt_f32 fmt_f64) = Panic PUnwrap) /\
  (forall t, ~ (1 <= dt_month t <= 12 /\ 1 <= dt_day t <= month_days (dt_year t) (dt_month t)) ->
     rbind (sv_of_binlog (LDateTime t) unsigned) (param_text fmt_f32 fmt_f64) = Panic PUnwrap).
Proof.
  intros. exact (conj (fun y m d => zero_date fmt_f32 fmt_f64 y m d unsigned) (fun t => zero_datetime fmt_f32 fmt_f64 t unsigned)).
Qed.
Print Assumptions C40_zero_date_refuted.
(** Finding: geometry values panic. *)
Theorem C40_geometry_refuted : forall fmt_f32 fmt_f64 bs unsigned,
  rbind (sv_of_binlog (LGeometry bs) unsigned) (param_text fmt_f32 fmt_f64) = Panic PUnimplemented.
Proof. exact geometry. Qed.
Print Assumptions C40_geometry_refuted.
(** Finding: the days of a TIME are a 32 bit number on the wire, the literal computes its hours in
    signed 32 bits. From 89478486 days on this overflows; the last 89478485 day counts are taken for
    negative ones (and their hours are not padded). *)
Theorem C40_time_days_refuted : forall fmt_f32 fmt_f64 neg h m s us unsigned, h < 24 -> m < 60 -> s < 60 ->
  (forall d, 89478486 <= d < 2 ^ 32 - 89478485 ->
     rbind (sv_of_binlog (LTime (mk_time neg d h m s us)) unsigned) (param_text fmt_f32 fmt_f64) = Panic PArith) /\
  (forall k, 0 < k -> k <= 89478485 -> exists hs, numeral (24 * k - h) hs /\
     rbind (sv_of_binlog (LTime (mk_time neg (2 ^ 32 - k) h m s 0)) unsigned) (param_text fmt_f32 fmt_f64)
     = Ok (str "'" ++ ((if neg then str "-" else []) ++ str "-" ++ hs ++ str ":" ++ digits 2 m ++ str ":" ++ digits 2 s) ++ str "'")).
Proof.
  intros fmt_f32 fmt_f64 neg h m s us unsigned Hh Hm Hs. split.
  - intros d Hd. cbn [sv_of_binlog rbind]. unfold param_text, to_sql_literal, new_mytime. cbn [sv_val].
    rewrite (time_overflow neg d h m s us Hd Hh). reflexivity.
  - intros k Hk Hk2. destruct (time_days k h Hk Hk2 Hh neg m s 0 Hm Hs) as (hs & H & E). exists hs. split; [exact H|].
    cbn [sv_of_binlog rbind]. unfold param_text, to_sql_literal, new_mytime. cbn [sv_val]. rewrite E. cbn [rmap rbind fst snd].
    unfold fmt_micro. change (0 =? 0) with true. cbv iota. rewrite app_nil_r. reflexivity.
Qed.
Print Assumptions C40_time_days_refuted.

Section Examples.
  (** any printer of floats *)
  Variables fmt_f32 fmt_f64 : N -> bytes.
  Let text (v : binlog_value) (unsigned : bool) : res bytes := rbind (sv_of_binlog v unsigned) (param_text fmt_f32 fmt_f64).
  Let moment := mk_dt 2020 2 29 23 59 58 0.
  Example C40_example :
    text (LLong 4294967295) false = Ok (str "-1") /\ text (LLong 4294967295) true = Ok (str "4294967295") /\
    text (LVarString (str "it's")) false = Ok (str "'it''s'") /\ lex true (str "'it''s'") = Some [TkText (str "it's")] /\
    text (LBlob [x00; xff]) false = Ok (str "x'00ff'") /\ lex true (str "x'00ff'") = Some [TkHex [x00; xff]] /\
    text (LDateTime moment) false = Ok (str "'2020-02-29 23:59:58'") /\
    text (LTimestamp (epoch_seconds moment)) false = Ok (str "'2020-02-29 23:59:58'") /\ epoch_seconds moment = 1583020798 /\
    text LNull false = Ok (str "null") /\
    text (LBit [x01; x00]) false = Ok (str "1") /\
    text (LVarString (str "\' OR 1 --")) false = Ok (str "'\'' OR 1 --'") /\
    lex true (str "'\'' OR 1 --'") = option_map (cons (TkText (str "'"))) (lex true (str " OR 1 --'")).
  Proof. repeat split; vm_compute; reflexivity. Qed.
  Example C40_hypotheses :
    logged fmt_f32 fmt_f64 false (LInt24 16777215) (VInt (-1)) /\ expressible true (LVarString (str "it's")) /\ expressible true (LVarString (str "50\%")) /\ ~ expressible true (LVarString (str "\")) /\
    logged fmt_f32 fmt_f64 false (LTimestamp 1583020798) (VText (str "2020-02-29 23:59:58")) /\
    logged fmt_f32 fmt_f64 false (match fst (read_decimal 3 2 (decimal_bytes 3 2 true 12 34)) with Ok d => LNewDecimal d | _ => LNull end)
      (VNumber true (str "12.34")).
  Proof.
    split; [apply lg_int24, li_signed; [reflexivity|reflexivity|split; [vm_compute; split; [discriminate|reflexivity]|reflexivity]]|].
    split; [split; [reflexivity|split; [intros _; cbn [str kept_escapes]; repeat split; intros K; discriminate K|right; repeat constructor]]|].
    split; [split; [reflexivity|split; [intros _|right; repeat constructor]]|].
    { split; [intros K; discriminate K|]. split; [intros K; discriminate K|]. split; [intros _; eexists _, _; split; [reflexivity|left; reflexivity]|].
      split; [intros K; discriminate K|exact I]. }
    split; [intros (_ & H & _); destruct (H eq_refl) as [K _]; destruct (K eq_refl) as (c & r & E & _); discriminate E|].
    split; [refine (lg_timestamp _ _ _ moment _ _ _ _ _ _); try reflexivity; vm_compute; repeat split; discriminate|].
    refine (lg_decimal _ _ _ _ 3 2 true 12 34 _ _ _ _ _ _); [discriminate|reflexivity| |reflexivity|].
    - repeat split; try (right; reflexivity); try (intros _; right; vm_compute; discriminate); repeat constructor; vm_compute; discriminate.
    - exists (str "12"). split; [exists 1%nat; split; [reflexivity|split; vm_compute; first [reflexivity|discriminate|right; discriminate|auto]]|reflexivity].
  Qed.
End Examples.

(** *** C41 *)
(** One statement for every logged row, in order, for the named table, with every column of the
    row image and its value; deletes and updates name the rows by the key columns of the before
    image. For images that hold the first [k] columns: all of them unless binlog_row_image is
    changed. *)
Theorem C41_insert : forall fmt_f32 fmt_f64 esc db tbl r defs k xss,
  plain_name db -> plain_name tbl -> Forall (fun d => plain_name (cd_name d)) defs ->
  first_present (length defs) k (r_present_bitmap r) ->
  Forall2 (fun row xs => row_means fmt_f32 fmt_f64 esc (firstn k defs) (firstn k row) xs) (r_rows r) xss ->
  exists q stmts, sql_from_insert db tbl r defs = Ok q /\ q_dbname q = db /\ sql_list fmt_f32 fmt_f64 q = Ok stmts /\
    Forall2 (fun xs s => inserts esc db tbl (firstn k defs) xs s) xss stmts.
Proof. exact insert_statements. Qed.
Print Assumptions C41_insert.
Theorem C41_delete : forall fmt_f32 fmt_f64 esc db tbl r defs k xss,
  plain_name db -> plain_name tbl -> Forall (fun d => plain_name (cd_name d)) defs ->
  first_present (length defs) k (r_present_bitmap r) ->
  Forall2 (fun row xs => row_means fmt_f32 fmt_f64 esc (firstn k defs) (firstn k row) xs) (r_rows r) xss ->
  exists q stmts, sql_from_delete db tbl r defs = Ok q /\ q_dbname q = db /\ sql_list fmt_f32 fmt_f64 q = Ok stmts /\
    Forall2 (fun xs s => deletes esc db tbl (firstn k defs) xs s) xss stmts.
Proof. exact delete_statements. Qed.
Print Assumptions C41_delete.
Theorem C41_update : forall fmt_f32 fmt_f64 esc db tbl u defs k k' xss,
  plain_name db -> plain_name tbl -> Forall (fun d => plain_name (cd_name d)) defs ->
  first_present (length defs) k (u_before_present_bitmap u) -> first_present (length defs) k' (u_after_present_bitmap u) ->
  Forall2 (fun row xs => row_means fmt_f32 fmt_f64 esc (firstn k defs) (firstn k (fst row)) (fst xs) /\
                         row_means fmt_f32 fmt_f64 esc (firstn k' defs) (firstn k' (snd row)) (snd xs)) (u_rows u) xss ->
  exists q stmts, sql_from_update db tbl u defs = Ok q /\ q_dbname q = db /\ sql_list fmt_f32 fmt_f64 q = Ok stmts /\
    Forall2 (fun xs s => updates esc db tbl (firstn k defs) (firstn k' defs) (fst xs) (snd xs) s) xss stmts.
Proof. exact update_statements. Qed.
Print Assumptions C41_update.

(** a table t(k INT PRIMARY KEY, v VARCHAR): column definitions as sent by the server *)
Definition col_k : column_def := mk_cd (str "def") (str "d") (str "t") (str "t") (str "k") (str "k") 63 11 TLong 0x4003 0 [].
Definition col_v : column_def := mk_cd (str "def") (str "d") (str "t") (str "t") (str "v") (str "v") 33 30 TVarString 0 0 [].
(** Finding: a row image without the first column (binlog_row_image=MINIMAL). The rows hold a NULL
    for the absent column, and the values are paired with the wrong columns: the value is lost. *)
Theorem C41_partial_image_refuted : forall fmt_f32 fmt_f64 s,
  rbind (sql_from_insert (str "d") (str "t") (mk_rows [] 2 [x02] [[LNull; LVarString s]]) [col_k; col_v]) (sql_list fmt_f32 fmt_f64)
    = Ok [str "INSERT INTO `d`.`t` (`v`) VALUES (null)"] /\
  rbind (sql_from_update (str "d") (str "t") (mk_update_rows [] 2 [x01] [x02] [([LLong 7; LNull], [LNull; LVarString s])]) [col_k; col_v])
        (sql_list fmt_f32 fmt_f64)
    = Ok [str "UPDATE `d`.`t` SET `v` = null WHERE `k` = 7"].
Proof. intros. split; vm_compute; reflexivity. Qed.
Print Assumptions C41_partial_image_refuted.
(** Finding: the statement for a table without key column has nothing after WHERE. *)
Theorem C41_no_key_refuted : forall fmt_f32 fmt_f64 esc db tbl r defs k xss,
  plain_name db -> plain_name tbl -> Forall (fun d => plain_name (cd_name d)) defs -> Forall (fun d => is_key d = false) defs ->
  first_present (length defs) k (r_present_bitmap r) ->
  Forall2 (fun row xs => row_means fmt_f32 fmt_f64 esc (firstn k defs) (firstn k row) xs) (r_rows r) xss ->
  exists q stmts, sql_from_delete db tbl r defs = Ok q /\ sql_list fmt_f32 fmt_f64 q = Ok stmts /\ length stmts = length (r_rows r) /\
    Forall (fun s => lex esc s = Some ([TkWord (str "DELETE"); TkWord (str "FROM")] ++ dotted db tbl ++ [TkWord (str "WHERE")])) stmts.
Proof. exact delete_no_key. Qed.
Print Assumptions C41_no_key_refuted.
(** Finding: a NULL in a key column (a UNIQUE key allows it) is compared with =, which no row meets. *)
Theorem C41_null_key_refuted : forall fmt_f32 fmt_f64 s,
  rbind (sql_from_delete (str "d") (str "t") (mk_rows [] 2 [x03] [[LNull; LVarString s]]) [col_k; col_v]) (sql_list fmt_f32 fmt_f64)
    = Ok [str "DELETE FROM `d`.`t` WHERE `k` = null"].
Proof. intros. vm_compute. reflexivity. Qed.
Print Assumptions C41_null_key_refuted.
(** Finding: a backtick in a name is not doubled. *)
Theorem C41_backtick_refuted : forall fmt_f32 fmt_f64,
  exists s, rbind (sql_from_delete (str "d") (str "a`b") (mk_rows [] 1 [x01] [[LLong 7]]) [col_k]) (sql_list fmt_f32 fmt_f64) = Ok [s] /\
    lex true s <> Some (delete_tokens (str "d") (str "a`b") [(str "k", [TkNum (str "7")])]).
Proof. intros. eexists. split; [vm_compute; reflexivity|]. vm_compute. discriminate. Qed.
Print Assumptions C41_backtick_refuted.
Example C41_example : forall fmt_f32 fmt_f64,
  let rows := [[LLong 4294967295; LVarString (str "it's")]; [LLong 2; LNull]] in
  first_present 2 2 [x03] /\
  Forall2 (fun row xs => row_means fmt_f32 fmt_f64 true [col_k; col_v] (firstn 2 row) xs) rows
    [[VInt (-1); VText (str "it's")]; [VInt 2; VNull]] /\
  rbind (sql_from_insert (str "d") (str "t") (mk_rows [] 2 [x03] rows) [col_k; col_v]) (sql_list fmt_f32 fmt_f64)
    = Ok [str "INSERT INTO `d`.`t` (`k`,`v`) VALUES (-1,'it''s')"; str "INSERT INTO `d`.`t` (`k`,`v`) VALUES (2,null)"] /\
  rbind (sql_from_delete (str "d") (str "t") (mk_rows [] 2 [x03] rows) [col_k; col_v]) (sql_list fmt_f32 fmt_f64)
    = Ok [str "DELETE FROM `d`.`t` WHERE `k` = -1"; str "DELETE FROM `d`.`t` WHERE `k` = 2"] /\
  rbind (sql_from_update (str "d") (str "t") (mk_update_rows [] 2 [x03] [x03] [([LLong 1; LNull], [LLong 1; LVarString (str "b")])]) [col_k; col_v])
        (sql_list fmt_f32 fmt_f64)
    = Ok [str "UPDATE `d`.`t` SET `k` = 1, `v` = 'b' WHERE `k` = 1"].
Proof.
  intros. split; [split; [cbn; lia|intros [|[|i]] H; [reflexivity|reflexivity|lia]]|]. split; [|repeat split; vm_compute; reflexivity].
  constructor; [|constructor; [|constructor]].
  - apply rm_cons; [apply lg_long, li_signed; [reflexivity|reflexivity|split; [vm_compute; split; [discriminate|reflexivity]|reflexivity]]|exact I|].
    apply rm_cons; [apply lg_varstring| |apply rm_nil].
    split; [reflexivity|split; [intros _; cbn [str kept_escapes]; repeat split; intros K; discriminate K|]]. right. repeat constructor.
  - apply rm_cons; [apply lg_long, li_signed; [reflexivity|reflexivity|split; [vm_compute; split; [discriminate|reflexivity]|reflexivity]]|exact I|].
    apply rm_cons; [apply lg_null|exact I|apply rm_nil].
Qed.

(** *** C42 *)
(** One document for every logged row, in order, with its kind, database, table, and an object
    with one member per column of the image; [base64] lists exactly the binary columns. *)
Theorem C42_insert : forall widen fmt_f32 fmt_f64 db tbl r defs k xss,
  NoDup (map cd_name defs) -> first_present (length defs) k (r_present_bitmap r) ->
  Forall2 (fun row xs => json_readable widen fmt_f32 fmt_f64 (firstn k defs) (firstn k row) xs) (r_rows r) xss ->
  exists docs, json_from_insert widen db tbl r defs = Ok docs /\
    forall3 (fun row xs doc => json_insert widen fmt_f32 fmt_f64 db tbl (firstn k defs) (firstn k row) xs doc) (r_rows r) xss docs.
Proof. exact insert_json. Qed.
Print Assumptions C42_insert.
Theorem C42_delete : forall widen fmt_f32 fmt_f64 db tbl r defs k xss,
  NoDup (map cd_name defs) -> first_present (length defs) k (r_present_bitmap r) ->
  Forall2 (fun row xs => json_readable widen fmt_f32 fmt_f64 (firstn k defs) (firstn k row) xs) (r_rows r) xss ->
  exists docs, json_from_delete widen db tbl r defs = Ok docs /\
    forall3 (fun row xs doc => json_delete widen fmt_f32 fmt_f64 db tbl (firstn k defs) (firstn k row) xs doc) (r_rows r) xss docs.
Proof. exact delete_json. Qed.
Print Assumptions C42_delete.
Theorem C42_update : forall widen fmt_f32 fmt_f64 db tbl u defs k k' xss, NoDup (map cd_name defs) ->
  first_present (length defs) k (u_before_present_bitmap u) -> first_present (length defs) k' (u_after_present_bitmap u) ->
  Forall2 (fun row xs => json_readable widen fmt_f32 fmt_f64 (firstn k defs) (firstn k (fst row)) (fst xs) /\
                         json_readable widen fmt_f32 fmt_f64 (firstn k' defs) (firstn k' (snd row)) (snd xs)) (u_rows u) xss ->
  exists docs, json_from_update widen db tbl u defs = Ok docs /\
    forall3 (fun row xs doc => json_update widen fmt_f32 fmt_f64 db tbl
               (firstn k defs) (firstn k (fst row)) (fst xs) (firstn k' defs) (firstn k' (snd row)) (snd xs) doc) (u_rows u) xss docs.
Proof. exact update_json. Qed.
Print Assumptions C42_update.
(** Findings: values that panic, or whose JSON value is wrong. *)
Theorem C42_values_refuted : forall widen unsigned (fmt_f32 fmt_f64 : N -> bytes),
  let json_of v := rbind (sv_of_binlog v unsigned) (to_json_value widen) in
  (* text that is not UTF-8 *)
  (forall bs, utf8_valid bs = false -> json_of (LString bs) = Panic PUnwrap /\ json_of (LVarString bs) = Panic PUnwrap) /\
  (* floats that are not finite (MySQL stores none) *)
  (forall n, ~ finite_double n -> json_of (LDouble n) = Panic PUnwrap) /\
  (forall n, ~ finite_double (widen n) -> json_of (LFloat n) = Panic PUnwrap) /\
  (* BIT: the bytes in the wrong order, and at most 64 bits *)
  (forall bs, (length bs <= 8)%nat -> json_of (LBit bs) = Ok (JInt (Z.of_N (le_val bs)), false)) /\
  (forall bs, (8 < length bs)%nat -> json_of (LBit bs) = Panic PArith) /\
  (* DATETIME: no fraction of a second *)
  (forall t, calendar_date (dt_year t) (dt_month t) (dt_day t) -> dt_hour t < 24 -> dt_minute t < 60 -> dt_second t < 60 -> dt_micro t < 1000000 ->
     json_of (LDateTime t) =
       Ok (JString (text_datetime (mk_dt (dt_year t) (dt_month t) (dt_day t) (dt_hour t) (dt_minute t) (dt_second t) 0)), false)) /\
  (* dates that are not in the calendar *)
  (forall y m d, ~ (1 <= m <= 12 /\ 1 <= d <= month_days y m) -> json_of (LDate y m d) = Panic PUnwrap) /\
  (forall t, ~ (1 <= dt_month t <= 12 /\ 1 <= dt_day t <= month_days (dt_year t) (dt_month t)) -> json_of (LDateTime t) = Panic PUnwrap) /\
  (forall bs, json_of (LGeometry bs) = Panic PUnimplemented).
Proof.
  intros widen u f g json_of. split; [exact (fun bs => json_invalid_utf8 widen bs u)|]. split; [exact (fun n => json_not_finite widen n u)|].
  split; [exact (fun n => json_not_finite32 widen n u)|]. split; [exact (fun bs => json_bit_order widen bs u)|].
  split; [exact (fun bs => json_bit_wide widen f g bs u)|]. split; [exact (fun t => json_datetime_fraction widen t u)|].
  split; [exact (fun y m d => json_zero_date widen f g y m d u)|]. split; [exact (fun t => json_zero_datetime widen f g t u)|].
  reflexivity.
Qed.
Print Assumptions C42_values_refuted.
(** Finding: partial images, as in C41 *)
Theorem C42_partial_image_refuted : forall widen s,
  json_from_insert widen (str "d") (str "t") (mk_rows [] 2 [x02] [[LNull; LVarString s]]) [col_k; col_v] =
    Ok [mk_json JkInsert [] (str "d") (str "t") None (Some [(str "v", JNull)])].
Proof. intros. reflexivity. Qed.
Print Assumptions C42_partial_image_refuted.
Example C42_example : forall widen fmt_f32 fmt_f64,
  let row := [LVarString (str "a"); LLong 4294967295] in
  NoDup (map cd_name [col_v; col_k]) /\
  json_readable widen fmt_f32 fmt_f64 [col_v; col_k] (firstn 2 row) [VText (str "a"); VInt (-1)] /\
  json_from_insert widen (str "d") (str "t") (mk_rows [] 2 [x03] [row]) [col_v; col_k] =
    Ok [mk_json JkInsert [] (str "d") (str "t") None (Some [(str "k", JInt (-1)); (str "v", JString (str "a"))])] /\
  json_from_update widen (str "d") (str "t") (mk_update_rows [] 2 [x03] [x03] [([LLong 1; LBlob [x00; xff]], [LLong 1; LBlob (str "Man")])]) [col_k; col_v] =
    Ok [mk_json JkUpdate [str "v"] (str "d") (str "t") (Some [(str "k", JInt 1); (str "v", JString (str "AP8="))])
                (Some [(str "k", JInt 1); (str "v", JString (str "TWFu"))])].
Proof.
  intros. split; [repeat constructor; cbn; intuition discriminate|]. split; [|split; vm_compute; reflexivity].
  apply jr_cons; [apply lg_varstring|reflexivity|].
  apply jr_cons; [apply lg_long, li_signed; [reflexivity|reflexivity|split; [vm_compute; split; [discriminate|reflexivity]|reflexivity]]|exact I|apply jr_nil].
Qed.
