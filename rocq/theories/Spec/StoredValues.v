(** * Independent specification: every value that a column can hold

    [holds ty unsigned x bs]: a column of the type, UNSIGNED or not, holds the SQL value [x] and is logged as the bytes
    [bs] (mysql-server 5.7: [Field::pack]).  Unlike [written] of Spec/ServerLog.v nothing is left out: invalid and zero
    dates, fractions of seconds, any bytes in a text, sets, geometries and JSON documents (whose format is not spelled
    out: a document goes with any bytes). *)
From Coq Require Import Strings.String.
From Coq Require Import List NArith ZArith Arith Bool.
From Verif Require Import Model.Base Model.Auth Model.Time Model.Col
  Spec.Wire Spec.BitmapSpec Spec.Temporal Spec.DecimalSpec Spec.BinlogValues Spec.SqlSpec.
Import ListNotations.
Open Scope N_scope.

Section Holds.
  Variables fmt_f32 fmt_f64 : N -> bytes.
  Inductive holds : sql_type -> bool -> sql_value -> bytes -> Prop :=
  | hd_tiny u n z : logged_int u 8 n z -> holds STinyint u (VInt z) (wle 1 n)
  | hd_small u n z : logged_int u 16 n z -> holds SSmallint u (VInt z) (wle 2 n)
  | hd_medium u n z : logged_int u 24 n z -> holds SMediumint u (VInt z) (wle 3 n)
  | hd_int u n z : logged_int u 32 n z -> holds SInt u (VInt z) (wle 4 n)
  | hd_big u n z : logged_int u 64 n z -> holds SBigint u (VInt z) (wle 8 n)
  (** no NaN and no infinity: the printed text is a number *)
  | hd_float u bits (neg : bool) s : bits < 2 ^ 32 -> fmt_f32 bits = (if neg then [n2b 45] else []) ++ s -> number_text s ->
      holds SFloat u (VNumber neg s) (wle 4 bits)
  | hd_double u bits (neg : bool) s : bits < 2 ^ 64 -> fmt_f64 bits = (if neg then [n2b 45] else []) ++ s -> number_text s ->
      holds SDouble u (VNumber neg s) (wle 8 bits)
  | hd_decimal u prec scale neg i f s : 1 <= prec <= 65 -> scale <= 30 -> scale <= prec ->
      i < 10 ^ (prec - scale) -> f < 10 ^ scale -> decimal_text scale false i f s ->
      holds (SDecimal prec scale) u (VNumber neg s) (decimal_bytes (prec - scale) scale neg i f)
  | hd_year_zero u : holds SYear u (VInt 0) [x00]
  | hd_year u y : 1901 <= y <= 2155 -> holds SYear u (VInt (Z.of_N y)) (wle 1 (y - 1900))
  | hd_date u y m d : y <= 9999 -> m <= 12 -> d <= 31 -> holds SDate u (VText (text_date y m d)) (wle 3 (y * 512 + m * 32 + d))
  | hd_time u dec t : stored_time dec t ->
      holds (STimeT dec) u (VText (text_time (if t_micro t =? 0 then 0 else 6) t)) (time_bytes dec t)
  | hd_datetime u dec t : stored_datetime dec t -> holds (SDatetime dec) u (VText (text_datetime t)) (datetime_bytes dec t)
  | hd_timestamp u dec t : stored_datetime dec t -> calendar_date (dt_year t) (dt_month t) (dt_day t) -> 1970 <= dt_year t ->
      0 < epoch_seconds t < 2 ^ 32 ->
      holds (STimestamp dec) u (VText (text_datetime t)) (wbe 4 (epoch_seconds t) ++ frac_bytes dec (dt_micro t))
  | hd_timestamp_zero u dec : dec <= 6 ->
      holds (STimestamp dec) u (VText (str "0000-00-00 00:00:00")) (wbe 4 0 ++ frac_bytes dec 0)
  | hd_bit u m n : 1 <= m <= 64 -> n < 2 ^ m -> holds (SBit m) u (VInt (Z.of_N n)) (wbe (N.to_nat ((m + 7) / 8)) n)
  | hd_enum1 u n : n < 2 ^ 8 -> holds (SEnum 1) u (VInt (Z.of_N n)) (wle 1 n)
  | hd_enum2 u n : n < 2 ^ 16 -> holds (SEnum 2) u (VInt (Z.of_N n)) (wle 2 n)
  | hd_set u pack n : 1 <= pack <= 8 -> n < 256 ^ pack -> holds (SSet pack) u (VInt (Z.of_N n)) (wle (N.to_nat pack) n)
  | hd_blob u pack s : 1 <= pack <= 4 -> N.of_nat (length s) < 256 ^ pack ->
      holds (SBlob pack) u (VBinary s) (wle (N.to_nat pack) (N.of_nat (length s)) ++ s)
  | hd_varchar u max s : max < 2 ^ 16 -> N.of_nat (length s) <= max ->
      holds (SVarchar max) u (VText s) (wle (if max <? 256 then 1 else 2) (N.of_nat (length s)) ++ s)
  | hd_char u len s : len < 2 ^ 10 -> N.of_nat (length s) <= len ->
      holds (SChar len) u (VText s) (wle (if len <? 256 then 1 else 2) (N.of_nat (length s)) ++ s)
  | hd_geometry u s : N.of_nat (length s) < 2 ^ 32 -> holds SGeometryT u (VBinary s) (wle 4 (N.of_nat (length s)) ++ s)
  | hd_json u doc bs : holds SJson u (VText doc) bs.
End Holds.
