(** * Independent specification: the same table read through both protocols

    A query is answered with the texts of the values, a prepared statement with their binary forms
    (MySQL 5.7 manual, "Integer Types", "Date and Time Literals"; MySQL protocol documentation,
    "Text Resultset Row", "Binary Protocol Value").  The application asks each cell for a Rust type. *)
From Coq Require Import List NArith ZArith Arith Bool.
From Verif Require Import Model.Base Model.Utf8 Model.Time Model.Col Model.Extract
  Spec.Wire Spec.Temporal Spec.Packets Spec.Values Spec.Commands Spec.Execute Spec.ExtractSpec Spec.ResultSets Spec.SqlSpec Spec.Echo.
Import ListNotations.
Open Scope N_scope.
Notation sql_value := Execute.sql_value.
Notation VNull := Execute.VNull.
Notation VInt := Execute.VInt.

(** ** The server: texts *)
(** a whole number, possibly padded with zeros (ZEROFILL) *)
Definition number_shown (z : Z) (s : bytes) : Prop :=
  exists k, Z.abs_N z < 10 ^ N.of_nat (S k) /\ s = (if (z <? 0)%Z then [n2b 45] else []) ++ digits (S k) (Z.abs_N z).
(** the numbers of an integer column *)
Definition column_range (t : int_type) (unsigned : bool) (z : Z) : Prop :=
  if unsigned then (0 <= z < 2 ^ Z.of_N (int_bits t))%Z
  else (- 2 ^ (Z.of_N (int_bits t) - 1) <= z < 2 ^ (Z.of_N (int_bits t) - 1))%Z.
(** a date-time with [dec] digits after the point *)
Definition datetime_shown (dec : N) (t : my_datetime) : bytes :=
  text_date (dt_year t) (dt_month t) (dt_day t) ++ [n2b 32] ++ digits 2 (dt_hour t) ++ [n2b 58] ++ digits 2 (dt_minute t)
  ++ [n2b 58] ++ digits 2 (dt_second t)
  ++ (if dec =? 0 then [] else n2b 46 :: digits (N.to_nat dec) (dt_micro t / 10 ^ (6 - dec))).
(** [s] is the text of the value [v] of a column with [dec] fractional digits; the texts of floats are
    not fixed here *)
Definition shown (dec : N) (k : column) (v : sql_value) (s : bytes) : Prop :=
  match v with
  | VNull => False
  | VInt z =>
      (exists t, fst k = int_ct t /\ column_range t (snd k) z /\ number_shown z s) \/
      fst k = TYear /\ (0 <= z < 10000)%Z /\ s = digits 4 (Z.to_N z)
  | VFloat _ => fst k = TFloat
  | VDouble _ => fst k = TDouble
  | VBytes x => string_kind (fst k) <> None /\ s = x
  | VDateTime y m d h mi sec us =>
      fst k = TDate /\ y < 10000 /\ s = text_date y m d \/
      (fst k = TTimestamp \/ fst k = TDateTime) /\ stored_datetime dec (mk_dt y m d h mi sec us) /\
        s = datetime_shown dec (mk_dt y m d h mi sec us)
  | VTime neg days h mi sec us =>
      fst k = TTime /\ stored_time dec (mk_time neg days h mi sec us) /\ s = text_time dec (mk_time neg days h mi sec us)
  end.

(** ** The server: binary values; a zero time has no sign *)
Definition sent (k : column) (v : sql_value) (w : bytes) : Prop :=
  cell k v w /\ forall t, wire_value (fst k) (BTime t) w -> zero_time t = true -> t_neg t = false.
Inductive sent_cells : list column -> list sql_value -> list bool -> bytes -> Prop :=
| sc_nil : sent_cells [] [] [] []
| sc_null k ks vs nulls w : sent_cells ks vs nulls w -> sent_cells (k :: ks) (VNull :: vs) (true :: nulls) w
| sc_value k ks v vs nulls w1 w : sent k v w1 -> sent_cells ks vs nulls w ->
    sent_cells (k :: ks) (v :: vs) (false :: nulls) (w1 ++ w).

(** ** Rows *)
Definition text_row_of (defs : list column_def) (vs : list sql_value) (m : bytes) : Prop :=
  exists cs, m = text_row cs /\ length vs = length defs /\ length cs = length defs /\
    forall i df v c, nth_error defs i = Some df -> nth_error vs i = Some v -> nth_error cs i = Some c ->
      match c with
      | None => v = VNull
      | Some s => shown (cd_decimals df) (column_of df) v s /\ N.of_nat (length s) < 2 ^ 64
      end.
Definition binary_row_of (defs : list column_def) (vs : list sql_value) (m : bytes) : Prop :=
  exists nulls bm w, sent_cells (map column_of defs) vs nulls w /\ row_bitmap nulls bm /\ m = x00 :: bm ++ w.

(** ** The application *)
(** the Rust types both protocols offer ([f32] and [f64] apart) *)
Inductive ask :=
| QI8 | QU8 | QI16 | QU16 | QI32 | QU32 | QI64 | QU64 | QI24 | QU24
| QBool | QYear | QDecimal | QBit | QString | QBytes | QDate | QTime | QNaiveDateTime | QMyDateTime.
Inductive answer (D : Type) :=
| GInt (z : Z) | GBool (b : bool) | GDecimal (d : D) | GBytes (s : bytes) | GDate (d : naive_date) | GTime (t : my_time)
| GNaive (t : naive_datetime) | GMy (t : my_datetime).
Arguments GInt {D}. Arguments GBool {D}. Arguments GDecimal {D}. Arguments GBytes {D}. Arguments GDate {D}. Arguments GTime {D}.
Arguments GNaive {D}. Arguments GMy {D}.
(** the parsers of chrono and bigdecimal: [NaiveDate::from_str], [NaiveDateTime::parse_from_str] with
    "%Y-%m-%d %H:%M:%S" and with "%Y-%m-%d %H:%M:%S%.f", [BigDecimal::from_str] *)
Record readers (D : Type) := mk_readers {
  rd_date : bytes -> res naive_date;
  rd_datetime : bytes -> res naive_datetime;
  rd_fraction : bytes -> res naive_datetime;
  rd_decimal : bytes -> res D }.
Arguments rd_date {D}. Arguments rd_datetime {D}. Arguments rd_fraction {D}. Arguments rd_decimal {D}.
Definition naive (t : my_datetime) : naive_datetime :=
  mk_ndt (mk_nd (dt_year t) (dt_month t) (dt_day t)) (mk_nt (dt_hour t) (dt_minute t) (dt_second t) (dt_micro t * 1000)).
(** what is assumed of chrono: it reads the texts of dates and times that exist; the format without a
    fraction refuses texts with one *)
Definition readers_ok {D} (R : readers D) : Prop :=
  (forall y m d, y < 10000 -> real_date y m d -> rd_date R (text_date y m d) = Ok (mk_nd y m d)) /\
  (forall dec t, stored_datetime dec t -> real_date (dt_year t) (dt_month t) (dt_day t) ->
     if dec =? 0 then rd_datetime R (datetime_shown dec t) = Ok (naive t)
     else (exists e, rd_datetime R (datetime_shown dec t) = Err e) /\ rd_fraction R (datetime_shown dec t) = Ok (naive t)).

Definition some_as {A B} (f : A -> B) (r : res (option A)) : res (option B) := rmap (option_map f) r.
Definition as_text {D} (R : readers D) (q : ask) (c : text_value) : res (option (answer D)) :=
  match q with
  | QI8 => some_as GInt (i8_from_text c) | QU8 => some_as (fun n => GInt (Z.of_N n)) (u8_from_text c)
  | QI16 => some_as GInt (i16_from_text c) | QU16 => some_as (fun n => GInt (Z.of_N n)) (u16_from_text c)
  | QI32 => some_as GInt (i32_from_text c) | QU32 => some_as (fun n => GInt (Z.of_N n)) (u32_from_text c)
  | QI64 => some_as GInt (i64_from_text c) | QU64 => some_as (fun n => GInt (Z.of_N n)) (u64_from_text c)
  | QI24 => some_as GInt (i24_from_text c) | QU24 => some_as (fun n => GInt (Z.of_N n)) (u24_from_text c)
  | QBool => some_as GBool (bool_from_text c)
  | QYear => some_as (fun n => GInt (Z.of_N n)) (year_from_text c)
  | QDecimal => some_as GDecimal (text_parsed (rd_decimal R) c)
  | QBit => some_as GBytes (bit_from_text c)
  | QString => some_as GBytes (string_from_text c)
  | QBytes => some_as GBytes (bytes_from_text c)
  | QDate => some_as GDate (text_parsed (rd_date R) c)
  | QTime => some_as GTime (time_from_text_col c)
  | QNaiveDateTime => some_as GNaive (naive_datetime_from_text (rd_datetime R) (rd_fraction R) c)
  | QMyDateTime => some_as GMy (datetime_from_text_col (rd_datetime R) (rd_fraction R) c)
  end.
Definition as_binary {D} (R : readers D) (q : ask) (b : binary_value) : res (option (answer D)) :=
  match q with
  | QI8 => some_as GInt (i8_from_binary b) | QU8 => some_as (fun n => GInt (Z.of_N n)) (u8_from_binary b)
  | QI16 => some_as GInt (i16_from_binary b) | QU16 => some_as (fun n => GInt (Z.of_N n)) (u16_from_binary b)
  | QI32 => some_as GInt (i32_from_binary b) | QU32 => some_as (fun n => GInt (Z.of_N n)) (u32_from_binary b)
  | QI64 => some_as GInt (i64_from_binary b) | QU64 => some_as (fun n => GInt (Z.of_N n)) (u64_from_binary b)
  | QI24 => some_as GInt (i24_from_binary b) | QU24 => some_as (fun n => GInt (Z.of_N n)) (u24_from_binary b)
  | QBool => some_as GBool (bool_from_binary b)
  | QYear => some_as (fun n => GInt (Z.of_N n)) (year_from_binary b)
  | QDecimal => some_as GDecimal (decimal_from_binary (rd_decimal R) b)
  | QBit => some_as GBytes (bit_from_binary b)
  | QString => some_as GBytes (string_from_binary b)
  | QBytes => some_as GBytes (bytes_from_binary b)
  | QDate => some_as GDate (date_from_binary b)
  | QTime => some_as GTime (time_from_binary b)
  | QNaiveDateTime => some_as GNaive (naive_datetime_from_binary b)
  | QMyDateTime => some_as GMy (datetime_from_binary b)
  end.

(** the integer types: width and whether unsigned *)
Definition ask_int (q : ask) : option (N * bool) :=
  match q with
  | QI8 => Some (8, false) | QU8 => Some (8, true) | QI16 => Some (16, false) | QU16 => Some (16, true)
  | QI24 => Some (24, false) | QU24 => Some (24, true) | QI32 => Some (32, false) | QU32 => Some (32, true)
  | QI64 => Some (64, false) | QU64 => Some (64, true) | _ => None
  end.
(** the columns an integer type is made for: no wider than it; MEDIUMINT with its own types only *)
Definition int_fits (bits : N) (t : int_type) : Prop := int_bits t <= bits /\ (t = IMedium -> bits = 24).

(** What the value is as the Rust type; text that is not UTF-8 has no string *)
Definition meant {D} (R : readers D) (q : ask) (v : sql_value) : res (option (answer D)) :=
  match v, q with
  | VNull, _ => Ok None
  | VInt z, QBool => Ok (Some (GBool (z =? 1)%Z))
  | VInt z, _ => Ok (Some (GInt z))
  | VBytes s, QString => if utf8_valid s then Ok (Some (GBytes s)) else Err EUtf8
  | VBytes s, QDecimal => if utf8_valid s then rmap (fun d => Some (GDecimal d)) (rd_decimal R s) else Err EUtf8
  | VBytes s, _ => Ok (Some (GBytes s))
  | VDateTime y m d h mi s us, QDate => Ok (Some (GDate (mk_nd y m d)))
  | VDateTime y m d h mi s us, _ => Ok (Some (GNaive (naive (mk_dt y m d h mi s us))))
  | VTime neg days h mi s us, _ => Ok (Some (GTime (mk_time neg days h mi s us)))
  | _, _ => Err EColType
  end.
(** The application asks for a type that fits the column and the value: the sign matters only for
    numbers of the upper half, booleans are not negative, dates exist.  TIME only where its text is read
    right (C48). *)
Definition asked (q : ask) (dec : N) (k : column) (v : sql_value) : Prop :=
  match v, q with
  | VNull, _ => True
  | VInt z, QBool => fst k = TTiny /\ (0 <= z)%Z
  | VInt z, QYear => fst k = TYear
  | VInt z, _ => exists bits unsigned t, ask_int q = Some (bits, unsigned) /\ fst k = int_ct t /\ int_fits bits t /\
      (unsigned = snd k \/ 0 <= z < 2 ^ (Z.of_N (int_bits t) - 1))%Z
  | VBytes s, QString => In (fst k) text_columns
  | VBytes s, QBytes => In (fst k) (TGeometry :: text_columns)
  | VBytes s, QBit => fst k = TBit
  | VBytes s, QDecimal => fst k = TNewDecimal
  | VDateTime y m d h mi s us, QDate => fst k = TDate /\ real_date y m d
  | VDateTime y m d h mi s us, QNaiveDateTime => (fst k = TTimestamp \/ fst k = TDateTime) /\ real_date y m d
  | VTime neg days h mi s us, QTime => (neg = true -> days * 24 + h <> 0) /\ (us = 0 \/ dec = 3 \/ dec = 6)
  | _, _ => False
  end.
(** The cells for which the two protocols give different answers: a number of the upper half of an
    UNSIGNED column asked for as a wider signed type, and the TIME values whose text is read wrong. *)
Definition differs (q : ask) (dec : N) (k : column) (v : sql_value) : Prop :=
  match v with
  | VInt z => (exists bits, ask_int q = Some (bits, false)) /\ snd k = true /\
      exists t, fst k = int_ct t /\ (2 ^ (Z.of_N (int_bits t) - 1) <= z)%Z
  | VTime neg days h mi s us => q = QTime /\ (neg = true /\ days * 24 + h = 0 \/ us <> 0 /\ dec <> 3 /\ dec <> 6)
  | _ => False
  end.
