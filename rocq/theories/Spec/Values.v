(** * Independent specification: binary and text protocol values and rows

    Written from the MySQL protocol documentation ("Binary Protocol Value",
    "ProtocolBinary::ResultsetRow", "ProtocolText::ResultsetRow"). *)
From Coq Require Import List NArith ZArith Arith Bool.
From Verif Require Import Model.Base Model.Time Model.Col Spec.Wire Spec.BitmapSpec Spec.Packets.
Import ListNotations.
Open Scope N_scope.

(** the value constructor for the types sent as [string<lenenc>] *)
Definition string_kind (ct : column_type) : option (bytes -> binary_value) :=
  match ct with
  | TDecimal | TNewDecimal => Some BNewDecimal
  | TBit => Some BBit
  | TTinyBlob | TMediumBlob | TLongBlob | TBlob => Some BBlob
  | TVarchar | TVarString => Some BVarString
  | TString => Some BString
  | TGeometry => Some BGeometry
  | _ => None
  end.
Definition is_datetime (ct : column_type) : bool :=
  match ct with TTimestamp | TTimestamp2 | TDateTime | TDateTime2 => true | _ => false end.
Definition is_time (ct : column_type) : bool := match ct with TTime | TTime2 => true | _ => false end.
Definition sign_byte (neg : bool) : N := if neg then 1 else 0.

(** all ways a server may send a non-NULL value of a column type *)
Inductive wire_value : column_type -> binary_value -> bytes -> Prop :=
| wv_tiny n : n < 2 ^ 8 -> wire_value TTiny (BTiny n) (wle 1 n)
| wv_short n : n < 2 ^ 16 -> wire_value TShort (BShort n) (wle 2 n)
| wv_year n : n < 2 ^ 16 -> wire_value TYear (BYear n) (wle 2 n)
| wv_long n : n < 2 ^ 32 -> wire_value TLong (BLong n) (wle 4 n)
| wv_int24 n : n < 2 ^ 32 -> wire_value TInt24 (BInt24 n) (wle 4 n)
| wv_longlong n : n < 2 ^ 64 -> wire_value TLongLong (BLongLong n) (wle 8 n)
| wv_float n : n < 2 ^ 32 -> wire_value TFloat (BFloat n) (wle 4 n)
| wv_double n : n < 2 ^ 64 -> wire_value TDouble (BDouble n) (wle 8 n)
| wv_null : wire_value TNull BNull []
| wv_string ct wrap s : string_kind ct = Some wrap -> N.of_nat (length s) < 2 ^ 64 ->
    wire_value ct (wrap s) (wlstr s)
| wv_date0 : wire_value TDate (BDate 0 0 0) (wle 1 0)
| wv_date4 y m d : y < 2 ^ 16 -> m < 2 ^ 8 -> d < 2 ^ 8 ->
    wire_value TDate (BDate y m d) (wle 1 4 ++ wle 2 y ++ wle 1 m ++ wle 1 d)
| wv_time0 ct : is_time ct = true -> wire_value ct (BTime (mk_time false 0 0 0 0 0)) (wle 1 0)
| wv_time8 ct neg days h m s : is_time ct = true -> days < 2 ^ 32 -> h < 2 ^ 8 -> m < 2 ^ 8 -> s < 2 ^ 8 ->
    wire_value ct (BTime (mk_time neg days h m s 0))
      (wle 1 8 ++ wle 1 (sign_byte neg) ++ wle 4 days ++ wle 1 h ++ wle 1 m ++ wle 1 s)
| wv_time12 ct neg days h m s us : is_time ct = true -> days < 2 ^ 32 -> h < 2 ^ 8 -> m < 2 ^ 8 -> s < 2 ^ 8 ->
    us < 2 ^ 32 ->
    wire_value ct (BTime (mk_time neg days h m s us))
      (wle 1 12 ++ wle 1 (sign_byte neg) ++ wle 4 days ++ wle 1 h ++ wle 1 m ++ wle 1 s ++ wle 4 us)
| wv_dt0 ct : is_datetime ct = true -> wire_value ct (BDateTime (mk_dt 0 0 0 0 0 0 0)) (wle 1 0)
| wv_dt4 ct y m d : is_datetime ct = true -> y < 2 ^ 16 -> m < 2 ^ 8 -> d < 2 ^ 8 ->
    wire_value ct (BDateTime (mk_dt y m d 0 0 0 0)) (wle 1 4 ++ wle 2 y ++ wle 1 m ++ wle 1 d)
| wv_dt7 ct y m d h mi s : is_datetime ct = true -> y < 2 ^ 16 -> m < 2 ^ 8 -> d < 2 ^ 8 ->
    h < 2 ^ 8 -> mi < 2 ^ 8 -> s < 2 ^ 8 ->
    wire_value ct (BDateTime (mk_dt y m d h mi s 0))
      (wle 1 7 ++ wle 2 y ++ wle 1 m ++ wle 1 d ++ wle 1 h ++ wle 1 mi ++ wle 1 s)
| wv_dt11 ct y m d h mi s us : is_datetime ct = true -> y < 2 ^ 16 -> m < 2 ^ 8 -> d < 2 ^ 8 ->
    h < 2 ^ 8 -> mi < 2 ^ 8 -> s < 2 ^ 8 -> us < 2 ^ 32 ->
    wire_value ct (BDateTime (mk_dt y m d h mi s us))
      (wle 1 11 ++ wle 2 y ++ wle 1 m ++ wle 1 d ++ wle 1 h ++ wle 1 mi ++ wle 1 s ++ wle 4 us).

(** the columns of a row: NULLs take no bytes *)
Inductive wire_cols : list column_type -> list binary_value -> list bool -> bytes -> Prop :=
| wc_nil : wire_cols [] [] [] []
| wc_null ct cts vs nulls w : wire_cols cts vs nulls w ->
    wire_cols (ct :: cts) (BNull :: vs) (true :: nulls) w
| wc_value ct cts v vs nulls w1 w : wire_value ct v w1 -> wire_cols cts vs nulls w ->
    wire_cols (ct :: cts) (v :: vs) (false :: nulls) (w1 ++ w).
(** the NULL bitmap of a result set row: [(n + 9) / 8] bytes, bit [i + 2] for column [i] *)
Definition row_bitmap (nulls : list bool) (bm : bytes) : Prop :=
  (length bm = (length nulls + 9) / 8)%nat /\
  forall i, (i < length nulls)%nat -> bit bm (i + 2) = nth i nulls false.
(** a binary row as sent by a server *)
Definition wire_row (cts : list column_type) (vs : list binary_value) (w : bytes) : Prop :=
  exists nulls bm cols, wire_cols cts vs nulls cols /\ row_bitmap nulls bm /\ w = x00 :: bm ++ cols.

(** a text row as sent by a server *)
Definition text_cell (c : option bytes) : bytes :=
  match c with None => [xfb] | Some s => wlstr s end.
Definition text_row (cs : list (option bytes)) : bytes := concat (map text_cell cs).

(** ** values the library itself can write *)
Definition time_fields_ok (t : my_time) : Prop :=
  t_days t < 2 ^ 32 /\ t_hour t < 2 ^ 8 /\ t_minute t < 2 ^ 8 /\ t_second t < 2 ^ 8 /\ t_micro t < 2 ^ 32.
Definition datetime_fields_ok (t : my_datetime) : Prop :=
  dt_year t < 2 ^ 16 /\ dt_month t < 2 ^ 8 /\ dt_day t < 2 ^ 8 /\ dt_hour t < 2 ^ 8 /\ dt_minute t < 2 ^ 8 /\
  dt_second t < 2 ^ 8 /\ dt_micro t < 2 ^ 32.
Definition zero_time (t : my_time) : bool :=
  (t_days t =? 0) && (t_hour t =? 0) && (t_minute t =? 0) && (t_second t =? 0) && (t_micro t =? 0).
(** [v] is a (non-NULL) value of type [ct] whose fields fit their Rust types.
    Excluded (see the findings): strings of exactly 251 bytes, minus zero,
    and the [Timestamp] variant. *)
Definition value_of_type (ct : column_type) (v : binary_value) : Prop :=
  match v with
  | BNull => ct = TNull
  | BTiny n => ct = TTiny /\ n < 2 ^ 8
  | BShort n => ct = TShort /\ n < 2 ^ 16
  | BLong n => ct = TLong /\ n < 2 ^ 32
  | BFloat n => ct = TFloat /\ n < 2 ^ 32
  | BDouble n => ct = TDouble /\ n < 2 ^ 64
  | BTimestamp _ => False
  | BLongLong n => ct = TLongLong /\ n < 2 ^ 64
  | BInt24 n => ct = TInt24 /\ n < 2 ^ 32
  | BDate y m d => ct = TDate /\ y < 2 ^ 16 /\ m < 2 ^ 8 /\ d < 2 ^ 8
  | BTime t => is_time ct = true /\ time_fields_ok t /\ (zero_time t = true -> t_neg t = false)
  | BDateTime t => is_datetime ct = true /\ datetime_fields_ok t
  | BYear n => ct = TYear /\ n < 2 ^ 16
  | BBit bs | BNewDecimal bs | BBlob bs | BVarString bs | BString bs | BGeometry bs =>
      (exists wrap, string_kind ct = Some wrap /\ v = wrap bs) /\ str_ok bs
  end.
(** a cell of a row of columns *)
Definition null_or_value (ct : column_type) (v : binary_value) : Prop := v = BNull \/ value_of_type ct v.
