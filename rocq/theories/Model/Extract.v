(** * Model of mybin-core/src/resultset.rs, the macros of mybin-core/src/util.rs and the
    extraction impls of mybin-core/src/time.rs

    A text column value is [option bytes].  Signed integers are [Z], unsigned ones [N], floats
    bit patterns.  [str::parse] for floats, [BigDecimal] and dates and [str::to_lowercase] are
    external: parameters. *)
From Verif Require Import Model.Base Model.Utf8 Model.Fmt Model.Time Model.Col.
Open Scope N_scope.

(** col.rs:344 *)
Definition text_value := option bytes.

(** util.rs:31-47, [try_non_null_column_value!] *)
Definition non_null {C V} (from_col : C -> res (option V)) (value : C) : res V :=
  rbind (from_col value) (fun opt => match opt with None => Err ENull | Some r => Ok r end).

(** ** Text values *)
(** util.rs:10-27, [try_from_text_column_value!], with the [parse] of the target type *)
Definition text_parsed {V} (parse : bytes -> res V) (value : text_value) : res (option V) :=
  match value with
  | None => Ok None
  | Some bs => rbind (from_utf8 bs) (fun s => rbind (parse s) (fun v => Ok (Some v)))
  end.
(** resultset.rs:164-166: one impl per integer type *)
Definition i8_from_text : text_value -> res (option Z) := text_parsed (parse_i 8).
Definition u8_from_text : text_value -> res (option N) := text_parsed (parse_u 8).
Definition i16_from_text : text_value -> res (option Z) := text_parsed (parse_i 16).
Definition u16_from_text : text_value -> res (option N) := text_parsed (parse_u 16).
Definition i32_from_text : text_value -> res (option Z) := text_parsed (parse_i 32).
Definition u32_from_text : text_value -> res (option N) := text_parsed (parse_u 32).
Definition i64_from_text : text_value -> res (option Z) := text_parsed (parse_i 64).
Definition u64_from_text : text_value -> res (option N) := text_parsed (parse_u 64).
Definition i128_from_text : text_value -> res (option Z) := text_parsed (parse_i 128).
Definition u128_from_text : text_value -> res (option N) := text_parsed (parse_u 128).
(** resultset.rs:128-140: two formats, with or without a fraction *)
Definition naive_datetime_from_text {V} (parse parse_frac : bytes -> res V) (value : text_value) : res (option V) :=
  match value with
  | None => Ok None
  | Some bs =>
      rbind (from_utf8 bs) (fun s =>
      rbind (match parse s with Err _ => parse_frac s | r => r end) (fun ts => Ok (Some ts)))
  end.
(** resultset.rs:144-155 *)
Definition bool_from_text (value : text_value) : res (option bool) :=
  match value with
  | None => Ok None
  | Some bs => rbind (from_utf8 bs) (fun s => rbind (parse_u 8 s) (fun v => Ok (Some (v =? 1))))
  end.
(** resultset.rs:188-192 *)
Definition bytes_from_text (value : text_value) : res (option bytes) := Ok value.
(** resultset.rs:282-293 *)
Definition i24_from_text (value : text_value) : res (option Z) :=
  match value with
  | None => Ok None
  | Some bs => rbind (from_utf8 bs) (fun s => rbind (parse_i 32 s) (fun n => Ok (Some n)))
  end.
(** resultset.rs:314-325 *)
Definition u24_from_text (value : text_value) : res (option N) :=
  match value with
  | None => Ok None
  | Some bs => rbind (from_utf8 bs) (fun s => rbind (parse_u 32 s) (fun n => Ok (Some n)))
  end.
(** resultset.rs:344-355 *)
Definition year_from_text (value : text_value) : res (option N) :=
  match value with
  | None => Ok None
  | Some bs => rbind (from_utf8 bs) (fun s => rbind (parse_u 16 s) (fun n => Ok (Some n)))
  end.
(** resultset.rs:376-386 *)
Definition string_from_text (value : text_value) : res (option bytes) :=
  match value with
  | None => Ok None
  | Some bs => rbind (from_utf8 bs) (fun s => Ok (Some s))
  end.
(** resultset.rs:406-413 *)
Definition bit_from_text (value : text_value) : res (option bytes) :=
  match value with None => Ok None | Some bs => Ok (Some bs) end.
(** time.rs:60-109 *)
Definition time_from_text_col (value : text_value) : res (option my_time) :=
  match value with None => Ok None | Some bs => rmap Some (time_from_text bs) end.
(** time.rs:190-206: the format is chosen by the length *)
Definition datetime_from_text_col (parse parse_frac : bytes -> res naive_datetime) (value : text_value)
  : res (option my_datetime) :=
  match value with
  | None => Ok None
  | Some bs =>
      rbind (from_utf8 bs) (fun s =>
      rbind (if 19 <? blen s then parse_frac s else parse s) (fun ts => Ok (Some (datetime_of_naive ts))))
  end.

(** ** Binary values *)
(** resultset.rs:172-183 *)
Definition bytes_from_binary (value : binary_value) : res (option bytes) :=
  match value with
  | BNull => Ok None
  | BBlob bs | BVarString bs | BString bs | BGeometry bs => Ok (Some bs)
  | _ => Err EColType
  end.
(** resultset.rs:196-204 *)
Definition bool_from_binary (value : binary_value) : res (option bool) :=
  match value with
  | BNull => Ok None
  | BTiny v => Ok (Some (v =? 1))
  | _ => Err EColType
  end.
(** resultset.rs:208-220 *)
Definition date_from_binary (value : binary_value) : res (option naive_date) :=
  match value with
  | BNull => Ok None
  | BDate year month day => rmap Some (from_ymd year month day)
  | _ => Err EColType
  end.
(** resultset.rs:224-234 *)
Definition naive_datetime_from_binary (value : binary_value) : res (option naive_datetime) :=
  match value with
  | BNull => Ok None
  | BDateTime ts | BTimestamp ts => rmap Some (naive_of_datetime ts)
  | _ => Err EColType
  end.
(** resultset.rs:238-249 *)
Definition decimal_from_binary {V} (parse : bytes -> res V) (value : binary_value) : res (option V) :=
  match value with
  | BNull => Ok None
  | BNewDecimal bs => rbind (from_utf8 bs) (fun s => rbind (parse s) (fun v => Ok (Some v)))
  | _ => Err EColType
  end.
(** resultset.rs:256-272 *)
Definition i24_from_binary (value : binary_value) : res (option Z) :=
  match value with
  | BNull => Ok None
  | BTiny v => Ok (Some (to_signed 8 v))
  | BShort v => Ok (Some (to_signed 16 v))
  | BInt24 v =>
      if negb (N.land v 0x800000 =? 0) then Ok (Some (to_signed 32 (N.lor v 0xff800000)))
      else Ok (Some (to_signed 32 v))
  | _ => Err EColType
  end.
(** resultset.rs:300-310 *)
Definition u24_from_binary (value : binary_value) : res (option N) :=
  match value with
  | BNull => Ok None
  | BTiny v | BShort v | BInt24 v => Ok (Some v)
  | _ => Err EColType
  end.
(** resultset.rs:332-340 *)
Definition year_from_binary (value : binary_value) : res (option N) :=
  match value with
  | BNull => Ok None
  | BYear n => Ok (Some n)
  | _ => Err EColType
  end.
(** resultset.rs:359-372 *)
Definition string_from_binary (value : binary_value) : res (option bytes) :=
  match value with
  | BNull => Ok None
  | BBlob bs | BVarString bs | BString bs => rbind (from_utf8 bs) (fun s => Ok (Some s))
  | _ => Err EColType
  end.
(** resultset.rs:393-401 *)
Definition bit_from_binary (value : binary_value) : res (option bytes) :=
  match value with
  | BNull => Ok None
  | BBit bs => Ok (Some bs)
  | _ => Err EColType
  end.
(** resultset.rs:417-425 *)
Definition f32_from_binary (value : binary_value) : res (option N) :=
  match value with
  | BNull => Ok None
  | BFloat n => Ok (Some n)
  | _ => Err EColType
  end.
(** resultset.rs:429-437 *)
Definition f64_from_binary (value : binary_value) : res (option N) :=
  match value with
  | BNull => Ok None
  | BDouble n => Ok (Some n)
  | _ => Err EColType
  end.
(** resultset.rs:441-455, the macro of util.rs:51-66 expanded; widening casts keep the value *)
Definition i8_from_binary (value : binary_value) : res (option Z) :=
  match value with
  | BNull => Ok None
  | BTiny v => Ok (Some (to_signed 8 v))
  | _ => Err EColType
  end.
Definition u8_from_binary (value : binary_value) : res (option N) :=
  match value with
  | BNull => Ok None
  | BTiny v => Ok (Some v)
  | _ => Err EColType
  end.
Definition i16_from_binary (value : binary_value) : res (option Z) :=
  match value with
  | BNull => Ok None
  | BTiny v => Ok (Some (to_signed 8 v))
  | BShort v => Ok (Some (to_signed 16 v))
  | _ => Err EColType
  end.
Definition u16_from_binary (value : binary_value) : res (option N) :=
  match value with
  | BNull => Ok None
  | BTiny v => Ok (Some v)
  | BShort v => Ok (Some v)
  | _ => Err EColType
  end.
Definition i32_from_binary (value : binary_value) : res (option Z) :=
  match value with
  | BNull => Ok None
  | BTiny v => Ok (Some (to_signed 8 v))
  | BShort v => Ok (Some (to_signed 16 v))
  | BLong v => Ok (Some (to_signed 32 v))
  | _ => Err EColType
  end.
Definition u32_from_binary (value : binary_value) : res (option N) :=
  match value with
  | BNull => Ok None
  | BTiny v => Ok (Some v)
  | BShort v => Ok (Some v)
  | BLong v => Ok (Some v)
  | _ => Err EColType
  end.
Definition i64_from_binary (value : binary_value) : res (option Z) :=
  match value with
  | BNull => Ok None
  | BTiny v => Ok (Some (to_signed 8 v))
  | BShort v => Ok (Some (to_signed 16 v))
  | BLong v => Ok (Some (to_signed 32 v))
  | BLongLong v => Ok (Some (to_signed 64 v))
  | _ => Err EColType
  end.
Definition u64_from_binary (value : binary_value) : res (option N) :=
  match value with
  | BNull => Ok None
  | BTiny v => Ok (Some v)
  | BShort v => Ok (Some v)
  | BLong v => Ok (Some v)
  | BLongLong v => Ok (Some v)
  | _ => Err EColType
  end.
(** time.rs:48-56 *)
Definition time_from_binary (value : binary_value) : res (option my_time) :=
  match value with
  | BNull => Ok None
  | BTime v => Ok (Some v)
  | _ => Err EColType
  end.
(** time.rs:178-186 *)
Definition datetime_from_binary (value : binary_value) : res (option my_datetime) :=
  match value with
  | BNull => Ok None
  | BTimestamp ts => Ok (Some ts)
  | _ => Err EColType
  end.

(** ** Finding columns *)
(** [HashMap::insert] and [get] as an association list; the newest entry of a key is found *)
Definition name_map := list (bytes * nat).
Fixpoint map_get (m : name_map) (name : bytes) : option nat :=
  match m with
  | [] => None
  | (k, i) :: m => if beqb k name then Some i else map_get m name
  end.
(** resultset.rs:55-65; of the stored meta only the index is used *)
Record column_extractor := mk_ext { meta_by_name : name_map; meta_by_lc_name : name_map }.
(** resultset.rs:71-88: the loop, at column [idx] *)
Fixpoint ext_insert (lower : bytes -> bytes) (names : list bytes) (idx : nat) (e : column_extractor) : column_extractor :=
  match names with
  | [] => e
  | name :: names =>
      ext_insert lower names (S idx)
        (mk_ext ((name, idx) :: meta_by_name e) ((lower name, idx) :: meta_by_lc_name e))
  end.
(** resultset.rs:68-93 *)
Definition extractor_new (lower : bytes -> bytes) (col_defs : list column_def) : column_extractor :=
  ext_insert lower (map cd_name col_defs) 0 (mk_ext [] []).
(** resultset.rs:95-109 *)
Definition get_col {C V} (from_col : C -> res V) (row : list C) (idx : nat) : res V :=
  if (length row <=? idx)%nat then Err EColIndex
  else match nth_error row idx with Some c => from_col c | None => Panic PIndex end.
(** resultset.rs:111-125 *)
Definition get_named_col {C V} (lower : bytes -> bytes) (e : column_extractor) (from_col : C -> res V) (row : list C)
  (name : bytes) : res V :=
  match map_get (meta_by_name e) name with
  | Some idx => get_col from_col row idx
  | None =>
      match map_get (meta_by_lc_name e) (lower name) with
      | Some idx => get_col from_col row idx
      | None => Err EColName
      end
  end.
