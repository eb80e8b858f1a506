(** * Independent specification: a server that sends back the values it was given

    The application binds arguments to a prepared statement; the server keeps the values it read from the
    request in columns of fitting types and later sends them as a row of a binary result set. *)
From Coq Require Import List NArith ZArith Arith Bool.
From Verif Require Import Model.Base Model.Utf8 Model.Conn Model.Time Model.Col Model.Row Model.Extract Model.Stmt Model.Session
  Spec.Wire Spec.Packets Spec.Values Spec.Commands Spec.Execute Spec.ExtractSpec.
Import ListNotations.
Open Scope N_scope.

(** ** The server *)
(** a column: its type and whether it is UNSIGNED (bit 5 of the flags of its definition) *)
Definition column := (column_type * bool)%type.
Definition column_of (d : column_def) : column := (cd_type d, N.testbit (cd_flags d) 5).
(** [w] is a cell of the column which stands for the value [v], by the same reading of values the server
    uses for requests *)
Definition cell (k : column) (v : sql_value) (w : bytes) : Prop :=
  (exists b, wire_value (fst k) b w) /\ dvalue (column_type_code (fst k)) (snd k) w = Some (v, []).
(** the cells of a row; NULLs take no bytes *)
Inductive cells : list column -> list sql_value -> list bool -> bytes -> Prop :=
| cells_nil : cells [] [] [] []
| cells_null k ks vs nulls w : cells ks vs nulls w -> cells (k :: ks) (VNull :: vs) (true :: nulls) w
| cells_value k ks v vs nulls w1 w : cell k v w1 -> cells ks vs nulls w ->
    cells (k :: ks) (v :: vs) (false :: nulls) (w1 ++ w).
Definition row_of (ks : list column) (vs : list sql_value) (m : bytes) : Prop :=
  exists nulls bm w, cells ks vs nulls w /\ row_bitmap nulls bm /\ m = x00 :: bm ++ w.

(** ** The application *)
Definition text_columns : list column_type :=
  [TTinyBlob; TMediumBlob; TLongBlob; TBlob; TVarchar; TVarString; TString].
(** the columns made for the arguments of a Rust type *)
Definition fits_column (a : arg) (k : column) : Prop :=
  match a with
  | ANull => True
  | AI8 _ => k = (TTiny, false)
  | AU8 _ => k = (TTiny, true)
  | AI16 _ => k = (TShort, false)
  | AU16 _ => k = (TShort, true)
  | AI32 _ => k = (TLong, false)
  | AU32 _ => k = (TLong, true)
  | AI64 _ => k = (TLongLong, false)
  | AU64 _ => k = (TLongLong, true)
  | AF32 _ => fst k = TFloat
  | AF64 _ => fst k = TDouble
  | ABool _ => fst k = TTiny
  | AMyYear _ => fst k = TYear
  | ADecimal _ => fst k = TNewDecimal
  | AMyBit _ => fst k = TBit
  | AString _ => In (fst k) text_columns
  | AVec _ => In (fst k) (TGeometry :: text_columns)
  | ADate _ => fst k = TDate
  | AMyTime _ | ATime _ _ _ => fst k = TTime
  | ANaiveDateTime _ | AMyDateTime _ => fst k = TTimestamp \/ fst k = TDateTime
  end.
Definition real_naive (d : naive_date) : Prop := real_date (nd_year d) (nd_month d) (nd_day d).
(** what the Rust types guarantee: dates of [NaiveDate] exist, strings are UTF-8.
    The crate's own date-time can hold dates that do not exist: it is asked to. *)
Definition rust_ok (a : arg) : Prop :=
  match a with
  | ADate d => real_naive d
  | ANaiveDateTime t => real_naive (ndt_date t)
  | AMyDateTime t => real_date (dt_year t) (dt_month t) (dt_day t) /\
      dt_hour t < 24 /\ dt_minute t < 60 /\ dt_second t < 60 /\ dt_micro t < 1000000
  | AString s | ADecimal s => utf8_valid s = true
  | _ => True
  end.
(** the same time; the sign of zero does not matter *)
Definition same_time (t t' : my_time) : Prop := t' = t \/ zero_time t = true /\ zero_time t' = true.
(** Asking the cell for the argument's Rust type gives the argument; NULL is absent whatever the type.
    Digits below the microsecond are dropped; decimals are parsed again from the text that was sent;
    the crate's own date-time cannot be asked for (C25), the chrono type stands in. *)
Definition returned (a : arg) (b : binary_value) : Prop :=
  match a with
  | ANull => b = BNull
  | AI8 z => i8_from_binary b = Ok (Some z)
  | AU8 n => u8_from_binary b = Ok (Some n)
  | AI16 z => i16_from_binary b = Ok (Some z)
  | AU16 n => u16_from_binary b = Ok (Some n)
  | AI32 z => i32_from_binary b = Ok (Some z)
  | AU32 n => u32_from_binary b = Ok (Some n)
  | AI64 z => i64_from_binary b = Ok (Some z)
  | AU64 n => u64_from_binary b = Ok (Some n)
  | AF32 n => f32_from_binary b = Ok (Some n)
  | AF64 n => f64_from_binary b = Ok (Some n)
  | ABool x => bool_from_binary b = Ok (Some x)
  | AMyYear n => year_from_binary b = Ok (Some n)
  | ADecimal s => forall V (parse : bytes -> res V), decimal_from_binary parse b = rmap Some (parse s)
  | AMyBit s => bit_from_binary b = Ok (Some s)
  | AString s => string_from_binary b = Ok (Some s)
  | AVec s => bytes_from_binary b = Ok (Some s)
  | ADate d => date_from_binary b = Ok (Some d)
  | AMyTime t => exists t', time_from_binary b = Ok (Some t') /\ same_time t t'
  | ATime neg days t => exists t', time_from_binary b = Ok (Some t') /\
      same_time (mk_time neg days (nt_hour t) (nt_minute t) (nt_second t) (nt_nano t / 1000)) t'
  | ANaiveDateTime t => naive_datetime_from_binary b = Ok (Some (mk_ndt (ndt_date t)
      (mk_nt (nt_hour (ndt_time t)) (nt_minute (ndt_time t)) (nt_second (ndt_time t)) (nt_nano (ndt_time t) / 1000 * 1000))))
  | AMyDateTime t => naive_datetime_from_binary b = Ok (Some (mk_ndt (mk_nd (dt_year t) (dt_month t) (dt_day t))
      (mk_nt (dt_hour t) (dt_minute t) (dt_second t) (dt_micro t * 1000))))
  end.

(** ** A program: insert rows with one statement, then select them with another *)
Fixpoint insert_all (checks : bool) (ps : prepared_stmt) (batch : list (list arg)) : io unit :=
  match batch with
  | [] => iret tt
  | args :: batch => _ <~ stmt_exec checks ps (map to_col args) ;; insert_all checks ps batch
  end.
Definition insert_and_select (checks : bool) (insert select : prepared_stmt) (batch : list (list arg)) : io result_set :=
  _ <~ insert_all checks insert batch ;; stmt_qry checks select [].
