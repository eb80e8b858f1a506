(** * Independent specification: the layouts of table maps, row images and the values in them

    As Spec/Accepts.v.  The decoder of a decimal looks at what follows: [rest] is what follows. *)
From Coq Require Import ZArith.
From Verif Require Import Model.Base Model.LenEnc Model.Utf8 Model.Time Model.Decimal Model.Col Model.Event Model.EventBody
  Model.Rows Spec.Nums Spec.LenEncSpec Spec.Wire Spec.BitmapSpec Spec.DecimalSpec Spec.Accepts Spec.AcceptsEvents.
Open Scope N_scope.

Definition takes_before {A} (p : parser A) (layout : A -> bytes -> bytes -> Prop) : Prop :=
  forall bs v rest, p bs = (Ok v, rest) <-> exists w, bs = w ++ rest /\ layout v w rest.

(** ** Descriptions of columns in a table map *)
Definition is_blob (ct : column_type) : bool :=
  match ct with TTinyBlob | TMediumBlob | TLongBlob | TBlob => true | _ => false end.
Inductive meta_layout : column_type -> column_meta -> bytes -> Prop :=
| ml_decimal : meta_layout TDecimal MDecimal []
| ml_tiny : meta_layout TTiny MTiny []
| ml_short : meta_layout TShort MShort []
| ml_long : meta_layout TLong MLong []
| ml_null : meta_layout TNull MNull []
| ml_longlong : meta_layout TLongLong MLongLong []
| ml_int24 : meta_layout TInt24 MInt24 []
| ml_date : meta_layout TDate MDate []
| ml_year : meta_layout TYear MYear []
| ml_float n w : byte1 n w -> meta_layout TFloat (MFloat n) w
| ml_double n w : byte1 n w -> meta_layout TDouble (MDouble n) w
| ml_timestamp n w : byte1 n w -> meta_layout TTimestamp2 (MTimestamp n) w
| ml_time n w : byte1 n w -> meta_layout TTime2 (MTime2 n) w
| ml_datetime n w : byte1 n w -> meta_layout TDateTime2 (MDateTime n) w
| ml_bit bits more w : fields [byte1 bits; byte1 more] w -> meta_layout TBit (MBit bits more) w
| ml_newdecimal prec frac w : fields [byte1 prec; byte1 frac] w -> meta_layout TNewDecimal (MNewDecimal prec frac) w
| ml_blob ct n w : is_blob ct = true -> byte1 n w -> meta_layout ct (MBlob n) w
| ml_varchar ct n w : ct = TVarchar \/ ct = TVarString -> is_le 2 n w -> meta_layout ct (MVarString n) w
| ml_geometry n w : byte1 n w -> meta_layout TGeometry (MGeometry n) w
(* a string: the type proper in the lower half of the first byte, the complement of two bits of the length in the upper half *)
| ml_enum t n w : t mod 16 = 7 -> fields [byte1 t; byte1 n] w -> meta_layout TString (MEnum n) w
| ml_string t n w : t mod 16 = 14 -> fields [byte1 t; byte1 n] w ->
    meta_layout TString (MString (256 * (3 - t / 16 mod 4) + n)) w.
(** the descriptions of [cnt] columns with the type codes [defs] *)
Definition metas_layout (cnt : N) (defs : bytes) (ms : list column_meta) (w : bytes) : Prop :=
  exists cts more, N.of_nat (length cts) = cnt /\ 4 * cnt < 2 ^ 63 /\ length ms = length cts /\
    map b2n defs = map column_type_code cts ++ more /\
    fields (map (fun '(ct, m) => meta_layout ct m) (combine cts ms)) w.
(** a table map with names in UTF-8; the bytes behind the descriptions and behind the bitmap are ignored *)
Definition whole_table_map_layout (t : table_map) (w : bytes) : Prop :=
  exists raw, fields [raw_table_map_layout raw; leftover] w /\
    (utf8_valid (rtm_schema_name raw) = true /\ utf8_valid (rtm_table_name raw) = true) /\
    (tm_schema_name t = rtm_schema_name raw /\ tm_table_name t = rtm_table_name raw /\ tm_null_bitmap t = rtm_null_bitmap raw) /\
    fields [metas_layout (rtm_col_cnt raw) (rtm_col_defs raw) (tm_col_metas t); leftover] (rtm_col_meta_defs raw).

(** ** Values in row images *)
(** [n] in [k] bytes, most significant byte first *)
Definition is_be (k : nat) (n : N) (w : bytes) : Prop := length w = k /\ be_val w = n.
(** bytes and unit of a fraction of a second with so many digits *)
Definition fraction (dec : N) : option (nat * N) :=
  match dec with
  | 0 => Some (0%nat, 0) | 1 | 2 => Some (1%nat, 10000) | 3 | 4 => Some (2%nat, 100) | 5 | 6 => Some (3%nat, 1) | _ => None
  end.
(** a signed number of units of 2^-24, biased, whose last 24 bits count units of the fraction *)
Definition packed_layout (k : nat) (dec : N) (p : Z) (w : bytes) : Prop :=
  exists width unit n f, fraction dec = Some (width, unit) /\ fields [is_be k n; is_be width f] w /\
    p = ((Z.of_N n - 2 ^ (8 * Z.of_nat k - 1)) * 2 ^ 24 + Z.of_N (f * unit))%Z.
(** TIME: the two bits above the ten of the hours are not looked at *)
Definition time_layout (dec : N) (t : my_time) (w : bytes) : Prop :=
  exists p high, packed_layout 3 dec p w /\ t_neg t = (p <? 0)%Z /\
    Z.abs_N p = ((high * 2 ^ 10 + t_days t * 24 + t_hour t) * 2 ^ 12 + t_minute t * 2 ^ 6 + t_second t) * 2 ^ 24 + t_micro t /\
    t_days t * 24 + t_hour t < 2 ^ 10 /\ t_hour t < 24 /\ t_minute t < 2 ^ 6 /\ t_second t < 2 ^ 6 /\ t_micro t < 2 ^ 24.
(** DATETIME: the sign is dropped, the smallest number has no counterpart *)
Definition datetime_layout (dec : N) (t : my_datetime) (w : bytes) : Prop :=
  exists p, packed_layout 5 dec p w /\ p <> (- 2 ^ 63)%Z /\
    Z.abs_N p = (((dt_year t * 13 + dt_month t) * 2 ^ 5 + dt_day t) * 2 ^ 17
                 + dt_hour t * 2 ^ 12 + dt_minute t * 2 ^ 6 + dt_second t) * 2 ^ 24 + dt_micro t /\
    dt_month t < 13 /\ dt_day t < 2 ^ 5 /\ dt_hour t < 2 ^ 5 /\ dt_minute t < 2 ^ 6 /\ dt_second t < 2 ^ 6 /\ dt_micro t < 2 ^ 24.
(** the old TIME: the decimal digits of a signed number *)
Definition old_time_layout (t : my_time) (w : bytes) : Prop :=
  exists n, is_le 3 n w /\ t_neg t = (2 ^ 23 <=? n) /\ t_micro t = 0 /\
    (if t_neg t then 2 ^ 24 - n else n) = (t_days t * 24 + t_hour t) * 10000 + t_minute t * 100 + t_second t /\
    t_hour t < 24 /\ t_minute t < 100 /\ t_second t < 100.
(** DECIMAL: groups of digits, complemented if negative.  The sign is told by the first bit, which is inverted,
    but left as it is if the integer part consists of whole groups; the last group of the fraction is filled up to nine digits.
    At the end of the input there is a zero *)
Definition scaled (frac : N) (gs : list N) : list N :=
  if frac mod 9 =? 0 then gs else removelast gs ++ [last gs 0 * 10 ^ (9 - frac mod 9)].
Definition decimal_layout (intg frac : N) (d : my_decimal) (w rest : bytes) : Prop :=
  (w ++ rest = [] /\ d = mk_dec intg frac false []) \/
  exists b more gs, w ++ rest = b :: more /\ d = mk_dec intg frac (b2n b <? 128) (scaled frac gs) /\
    let widths := int_widths intg ++ frac_widths frac in
    Forall2 (fun k g => g < 256 ^ N.of_nat k) widths gs /\ Forall (fun g => g < 2 ^ 32) (scaled frac gs) /\
    let body := wbes widths gs in
    let signed := if b2n b <? 128 then map complement body else body in
    w = if intg mod 9 =? 0 then signed else flip_first signed.
Inductive value_layout : column_meta -> binlog_value -> bytes -> bytes -> Prop :=
| vl_tiny n w rest : byte1 n w -> value_layout MTiny (LTiny n) w rest
| vl_short n w rest : is_le 2 n w -> value_layout MShort (LShort n) w rest
| vl_int24 n w rest : is_le 3 n w -> value_layout MInt24 (LInt24 n) w rest
| vl_long n w rest : is_le 4 n w -> value_layout MLong (LLong n) w rest
| vl_longlong n w rest : is_le 8 n w -> value_layout MLongLong (LLongLong n) w rest
| vl_float k n w rest : is_le 4 n w -> value_layout (MFloat k) (LFloat n) w rest
| vl_double k n w rest : is_le 8 n w -> value_layout (MDouble k) (LDouble n) w rest
| vl_null rest : value_layout MNull LNull [] rest
| vl_timestamp dec n w rest : is_be 4 n w -> value_layout (MTimestamp dec) (LTimestamp n) w rest
| vl_date y m d w rest : m < 16 -> d < 32 -> is_le 3 (y * 512 + m * 32 + d) w -> value_layout MDate (LDate y m d) w rest
| vl_old_time t w rest : old_time_layout t w -> value_layout MTime (LTime t) w rest
| vl_time dec t w rest : time_layout dec t w -> value_layout (MTime2 dec) (LTime t) w rest
| vl_datetime dec t w rest : datetime_layout dec t w -> value_layout (MDateTime dec) (LDateTime t) w rest
| vl_year0 rest : value_layout MYear (LYear 0) [x00] rest
| vl_year n w rest : 0 < n -> byte1 n w -> value_layout MYear (LYear (1900 + n)) w rest
| vl_bit bits more s rest : N.of_nat (length s) = more + (if bits =? 0 then 0 else 1) -> N.of_nat (length s) < 256 ->
    value_layout (MBit bits more) (LBit s) s rest
| vl_decimal prec frac d w rest : frac <= prec -> decimal_layout (prec - frac) frac d w rest ->
    value_layout (MNewDecimal prec frac) (LNewDecimal d) w rest
| vl_enum1 n w rest : is_le 1 n w -> value_layout (MEnum 1) (LEnum (Pack1 n)) w rest
| vl_enum2 n w rest : is_le 2 n w -> value_layout (MEnum 2) (LEnum (Pack2 n)) w rest
| vl_enum3 n w rest : is_le 3 n w -> value_layout (MEnum 3) (LEnum (Pack3 n)) w rest
| vl_enum4 n w rest : is_le 4 n w -> value_layout (MEnum 4) (LEnum (Pack4 n)) w rest
| vl_enum8 n w rest : is_le 8 n w -> value_layout (MEnum 8) (LEnum (Pack8 n)) w rest
| vl_blob k s w rest : 1 <= k <= 4 -> behind_length (is_le (N.to_nat k)) s w -> value_layout (MBlob k) (LBlob s) w rest
| vl_varchar max s w rest : N.of_nat (length s) <= max -> behind_length (is_le (if max <? 256 then 1 else 2)) s w ->
    value_layout (MVarString max) (LVarString s) w rest
(* longer than declared strings are taken *)
| vl_string len s w rest : behind_length (is_le (if len <? 256 then 1 else 2)) s w -> value_layout (MString len) (LString s) w rest.

(** ** Row images *)
(** [n] columns from column [i] on, of which [j] are present before: a column that is absent or NULL takes no bytes *)
Inductive image_columns (present null : nat -> bool) (metas : list column_meta)
  : nat -> nat -> nat -> list binlog_value -> bytes -> bytes -> Prop :=
| ic_end i j rest : image_columns present null metas i j 0 [] [] rest
| ic_absent i j n vs w rest : present i = false -> image_columns present null metas (S i) j n vs w rest ->
    image_columns present null metas i j (S n) (LNull :: vs) w rest
| ic_null i j n vs w rest : present i = true -> null j = true -> image_columns present null metas (S i) (S j) n vs w rest ->
    image_columns present null metas i j (S n) (LNull :: vs) w rest
| ic_value i j n m v vs w1 w rest : present i = true -> null j = false -> nth_error metas i = Some m -> value_layout m v w1 (w ++ rest) ->
    image_columns present null metas (S i) (S j) n vs w rest -> image_columns present null metas i j (S n) (v :: vs) (w1 ++ w) rest.
Definition present_count (n : N) (bitmap : bytes) : nat :=
  length (filter (fun i => bit bitmap i) (seq 0 (N.to_nat n))).
(** a bitmap with one bit per column that is present, then the columns *)
Definition image_layout (n : N) (present : bytes) (metas : list column_meta) (vs : list binlog_value) (w rest : bytes) : Prop :=
  exists nulls columns, w = nulls ++ columns /\ length nulls = ((present_count n present + 7) / 8)%nat /\ 40 * n < 2 ^ 63 /\
    image_columns (bit present) (bit nulls) metas 0 0 (N.to_nat n) vs columns rest.
(** one row after the other to the end, none of them empty *)
Inductive rows_layout {A} (row : A -> bytes -> bytes -> Prop) : list A -> bytes -> Prop :=
| rl_end : rows_layout row [] []
| rl_row r rs w ws : w <> [] -> row r w ws -> rows_layout row rs ws -> rows_layout row (r :: rs) (w ++ ws).
(** a number of columns: its last 32 bits count *)
Definition column_count (n : N) (w : bytes) : Prop := exists m, lenenc_any m w /\ n = m mod 2 ^ 32.
Definition rows_event_layout (extra_len : N) (metas : list column_meta) (r : rows_v2) (w : bytes) : Prop :=
  (extra_len = N.of_nat (length (r_extra_data r)) + 2 /\ r_n_cols r + 7 < 2 ^ 32 /\
   N.of_nat (length (r_present_bitmap r)) = (r_n_cols r + 7) / 8) /\
  fields [exactly (r_extra_data r); column_count (r_n_cols r); exactly (r_present_bitmap r);
          rows_layout (image_layout (r_n_cols r) (r_present_bitmap r) metas) (r_rows r)] w.
(** an update: the image before, then the image after *)
Definition update_layout (n : N) (before after : bytes) (metas : list column_meta) (r : list binlog_value * list binlog_value) (w rest : bytes) : Prop :=
  exists w1 w2, w = w1 ++ w2 /\ image_layout n before metas (fst r) w1 (w2 ++ rest) /\ image_layout n after metas (snd r) w2 rest.
Definition update_event_layout (extra_len : N) (metas : list column_meta) (r : update_rows_v2) (w : bytes) : Prop :=
  (extra_len = N.of_nat (length (u_extra_data r)) + 2 /\ u_n_cols r + 7 < 2 ^ 32 /\
   N.of_nat (length (u_before_present_bitmap r)) = (u_n_cols r + 7) / 8 /\
   N.of_nat (length (u_after_present_bitmap r)) = (u_n_cols r + 7) / 8) /\
  fields [exactly (u_extra_data r); column_count (u_n_cols r); exactly (u_before_present_bitmap r); exactly (u_after_present_bitmap r);
          rows_layout (update_layout (u_n_cols r) (u_before_present_bitmap r) (u_after_present_bitmap r) metas) (u_rows r)] w.
