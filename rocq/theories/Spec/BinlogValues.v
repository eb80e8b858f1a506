(** * Independent specification: column types, metadata and values in row events

    Written from mysql-server 5.7: libbinlogevents/include/rows_event.h (table-map metadata),
    [Field::save_in_field_metadata], [Field::pack] of sql/field.cc and [pack_row] of sql/rpl_record.cc. *)
From Verif Require Import Model.Base Model.Time Model.Decimal Model.Col Model.Rows
  Spec.Wire Spec.BitmapSpec Spec.Temporal Spec.DecimalSpec Spec.EventBodies.
Open Scope N_scope.

(** ** Types of columns *)
Inductive sql_type : Type :=
| STinyint | SSmallint | SMediumint | SInt | SBigint | SFloat | SDouble | SYear | SDate
| STimeT (dec : N) | SDatetime (dec : N) | STimestamp (dec : N)
| SBit (m : N)
| SDecimal (prec scale : N)
| SEnum (pack : N)            (* one byte up to 255 members, else two *)
| SSet (pack : N)
| SBlob (pack : N)            (* TINY-, -, MEDIUM-, LONGBLOB / TEXT: 1 to 4 bytes of length *)
| SVarchar (max : N)          (* in bytes *)
| SChar (len : N)             (* in bytes *)
| SJson | SGeometryT.

(** types MySQL can have *)
Definition sql_type_ok (ty : sql_type) : Prop :=
  match ty with
  | STimeT dec | SDatetime dec | STimestamp dec => dec <= 6
  | SBit m => 1 <= m <= 64
  | SDecimal prec scale => 1 <= prec <= 65 /\ scale <= 30 /\ scale <= prec
  | SEnum pack => pack = 1 \/ pack = 2
  | SSet pack => 1 <= pack <= 8
  | SBlob pack => 1 <= pack <= 4
  | SVarchar max => max < 2 ^ 16
  | SChar len => len < 2 ^ 10
  | _ => True
  end.

(** the type code and the metadata in a table-map event *)
Definition type_code (ty : sql_type) : byte :=
  match ty with
  | STinyint => x01 | SSmallint => x02 | SInt => x03 | SFloat => x04 | SDouble => x05 | SBigint => x08
  | SMediumint => x09 | SDate => x0a | SYear => x0d | SVarchar _ => x0f | SBit _ => x10
  | STimestamp _ => x11 | SDatetime _ => x12 | STimeT _ => x13
  | SJson => xf5 | SDecimal _ _ => xf6 | SBlob _ => xfc
  | SEnum _ | SSet _ | SChar _ => xfe
  | SGeometryT => xff
  end.
Definition type_meta (ty : sql_type) : bytes :=
  match ty with
  | SFloat => wle 1 4
  | SDouble => wle 1 8
  | STimeT dec | SDatetime dec | STimestamp dec => wle 1 dec
  | SBit m => wle 1 (m mod 8) ++ wle 1 (m / 8)
  | SDecimal prec scale => wle 1 prec ++ wle 1 scale
  | SEnum pack => wle 1 0xf7 ++ wle 1 pack
  | SSet pack => wle 1 0xf8 ++ wle 1 pack
  | SBlob pack => wle 1 pack
  | SVarchar max => wle 2 max
  (* two bits of the length are inverted into the type byte 0xfe *)
  | SChar len => wle 1 (N.lxor 0xfe (len / 256 * 16)) ++ wle 1 (len mod 256)
  | SJson | SGeometryT => wle 1 4
  | _ => []
  end.
(** what a reader of the table-map should be told about the column; [None] for the types the
    crate has no description for *)
Definition type_desc (ty : sql_type) : option column_meta :=
  match ty with
  | STinyint => Some MTiny | SSmallint => Some MShort | SMediumint => Some MInt24 | SInt => Some MLong
  | SBigint => Some MLongLong
  | SFloat => Some (MFloat 4) | SDouble => Some (MDouble 8)
  | SYear => Some MYear | SDate => Some MDate
  | STimeT dec => Some (MTime2 dec) | SDatetime dec => Some (MDateTime dec) | STimestamp dec => Some (MTimestamp dec)
  | SBit m => Some (MBit (m mod 8) (m / 8))
  | SDecimal prec scale => Some (MNewDecimal prec scale)
  | SEnum pack => Some (MEnum pack)
  | SBlob pack => Some (MBlob pack)
  | SVarchar max => Some (MVarString max)
  | SChar len => Some (MString len)
  | SGeometryT => Some (MGeometry 4)
  | SSet _ | SJson => None
  end.

(** ** Stored values *)

(** [d] is the number [-]i.f: its groups are digits to the base 10^9, the fraction filled up with
    zeros to whole groups *)
Definition number9 (gs : list N) : N := fold_left (fun a g => a * 10 ^ 9 + g) gs 0.
Definition decimal_is (d : my_decimal) (prec scale : N) (neg : bool) (i f : N) : Prop :=
  d_intg d = prec - scale /\ d_frac d = scale /\ d_neg d = neg /\
  exists ig fg, d_buf d = ig ++ fg /\ Forall (fun g => g < 10 ^ 9) (d_buf d) /\
    N.of_nat (length ig) = (prec - scale + 8) / 9 /\ N.of_nat (length fg) = (scale + 8) / 9 /\
    number9 ig = i /\ number9 fg = f * 10 ^ ((9 - scale mod 9) mod 9).

(** [stored ty v bs]: a column of type [ty] holding [v] is logged as [bs].  Integers are given by
    their bits: table-maps do not tell signed from unsigned columns. *)
Inductive stored : sql_type -> binlog_value -> bytes -> Prop :=
| st_tiny n : n < 2 ^ 8 -> stored STinyint (LTiny n) (wle 1 n)
| st_small n : n < 2 ^ 16 -> stored SSmallint (LShort n) (wle 2 n)
| st_medium n : n < 2 ^ 24 -> stored SMediumint (LInt24 n) (wle 3 n)
| st_int n : n < 2 ^ 32 -> stored SInt (LLong n) (wle 4 n)
| st_big n : n < 2 ^ 64 -> stored SBigint (LLongLong n) (wle 8 n)
| st_float bits : bits < 2 ^ 32 -> stored SFloat (LFloat bits) (wle 4 bits)
| st_double bits : bits < 2 ^ 64 -> stored SDouble (LDouble bits) (wle 8 bits)
| st_year_zero : stored SYear (LYear 0) [x00]
| st_year y : 1901 <= y <= 2155 -> stored SYear (LYear y) (wle 1 (y - 1900))
| st_date y m d : y <= 9999 -> m <= 12 -> d <= 31 -> stored SDate (LDate y m d) (wle 3 (y * 512 + m * 32 + d))
| st_time dec t : stored_time dec t -> stored (STimeT dec) (LTime t) (time_bytes dec t)
| st_datetime dec t : stored_datetime dec t -> stored (SDatetime dec) (LDateTime t) (datetime_bytes dec t)
| st_timestamp dec secs us : dec <= 6 -> secs < 2 ^ 32 -> us < 1000000 -> us mod 10 ^ (6 - dec) = 0 ->
    stored (STimestamp dec) (LTimestamp secs) (wbe 4 secs ++ frac_bytes dec us)
| st_bit m bs : 1 <= m <= 64 -> N.of_nat (length bs) = (m + 7) / 8 -> stored (SBit m) (LBit bs) bs
| st_decimal prec scale neg i f d : 1 <= prec <= 65 -> scale <= 30 -> scale <= prec ->
    i < 10 ^ (prec - scale) -> f < 10 ^ scale -> decimal_is d prec scale neg i f ->
    stored (SDecimal prec scale) (LNewDecimal d) (decimal_bytes (prec - scale) scale neg i f)
| st_enum1 n : n < 2 ^ 8 -> stored (SEnum 1) (LEnum (Pack1 n)) (wle 1 n)
| st_enum2 n : n < 2 ^ 16 -> stored (SEnum 2) (LEnum (Pack2 n)) (wle 2 n)
| st_blob pack s : 1 <= pack <= 4 -> N.of_nat (length s) < 256 ^ pack ->
    stored (SBlob pack) (LBlob s) (wle (N.to_nat pack) (N.of_nat (length s)) ++ s)
| st_varchar max s : max < 2 ^ 16 -> N.of_nat (length s) <= max ->
    stored (SVarchar max) (LVarString s) (wle (if max <? 256 then 1 else 2) (N.of_nat (length s)) ++ s)
| st_char len s : len < 2 ^ 10 -> N.of_nat (length s) <= len ->
    stored (SChar len) (LString s) (wle (if len <? 256 then 1 else 2) (N.of_nat (length s)) ++ s).

(** ** Exceptions: what the crate does not decode as stored (each shown in a theorem of its own) *)
Definition decodes_well (ty : sql_type) (v : binlog_value) : Prop :=
  match ty, v with
  | STimestamp dec, _ => dec = 0
  | STimeT dec, LTime t => t_neg t = false \/ t_micro t = 0 \/ 5 <= dec
  | SDecimal prec scale, _ => (prec - scale) mod 9 <> 0
  | _, _ => True
  end.

(** ** Table maps *)
Definition table_map_bytes (schema table : bytes) (tys : list sql_type) (null_bitmap : bytes) : bytes :=
  let metas := concat (map type_meta tys) in
  wstr1 schema ++ [x00] ++ wstr1 table ++ [x00]
  ++ wlenenc (N.of_nat (length tys)) ++ map type_code tys
  ++ wlenenc (N.of_nat (length metas)) ++ metas
  ++ null_bitmap.

(** [bs] is a bitmap of the flags [l]; the unused bits of the last byte are arbitrary *)
Definition bitmap_of (l : list bool) (bs : bytes) : Prop :=
  length bs = ((length l + 7) / 8)%nat /\ forall i, (i < length l)%nat -> bit bs i = nth i l false.

(** ** Row images *)
(** a column of a row image: not logged, NULL, or a value with its bytes *)
Inductive cell := CAbsent | CNull | CVal (v : binlog_value) (bs : bytes).
Definition cell_ok (ty : sql_type) (c : cell) : Prop :=
  match c with CVal v bs => stored ty v bs /\ decodes_well ty v | _ => True end.
Definition is_present (c : cell) : bool := match c with CAbsent => false | _ => true end.
Definition is_null (c : cell) : bool := match c with CNull => true | _ => false end.
Definition cell_bytes (c : cell) : bytes := match c with CVal _ bs => bs | _ => [] end.
(** what the reader should get *)
Definition cell_value (c : cell) : binlog_value := match c with CVal v _ => v | _ => LNull end.
(** a row of a table with columns [tys], logged with the present columns [present] as [bs]: the
    NULL flags of the present columns, then the values that are not NULL *)
Definition row_image (tys : list sql_type) (present : list bool) (row : list cell) (bs : bytes) : Prop :=
  Forall2 cell_ok tys row /\ map is_present row = present /\
  exists nulls, bitmap_of (map is_null (filter is_present row)) nulls /\
    bs = nulls ++ concat (map cell_bytes row).
(** the fixed part before the rows: extra data, column count *)
Definition rows_head (extra : bytes) (tys : list sql_type) : bytes :=
  extra ++ wlenenc (N.of_nat (length tys)).
(** table id, flags, length of the extra data (which counts itself) *)
Definition rows_event_bytes (table_id flags : N) (extra payload : bytes) : bytes :=
  wle 6 table_id ++ wle 2 flags ++ wle 2 (N.of_nat (length extra) + 2) ++ payload.
