(** * Model of mybin-core/src/col.rs *)
From Verif Require Import Model.Base Model.BytesParser Model.LenEnc Model.Utf8 Model.Flags Model.Packet
  Model.Cmd Model.Fmt Model.Time Model.Decimal.
Open Scope N_scope.

(** col.rs:20-52 *)
Inductive column_type : Type :=
| TDecimal | TTiny | TShort | TLong | TFloat | TDouble | TNull | TTimestamp | TLongLong | TInt24
| TDate | TTime | TDateTime | TYear | TVarchar | TBit | TTimestamp2 | TDateTime2 | TTime2
| TNewDecimal | TTinyBlob | TMediumBlob | TLongBlob | TBlob | TVarString | TString | TGeometry.

(** col.rs:54-99 *)
Definition column_type_of (code : N) : res column_type :=
  match code with
  | 0x00 => Ok TDecimal
  | 0x01 => Ok TTiny
  | 0x02 => Ok TShort
  | 0x03 => Ok TLong
  | 0x04 => Ok TFloat
  | 0x05 => Ok TDouble
  | 0x06 => Ok TNull
  | 0x07 => Ok TTimestamp
  | 0x08 => Ok TLongLong
  | 0x09 => Ok TInt24
  | 0x0a => Ok TDate
  | 0x0b => Ok TTime
  | 0x0c => Ok TDateTime
  | 0x0d => Ok TYear
  | 0x0f => Ok TVarchar
  | 0x10 => Ok TBit
  | 0x11 => Ok TTimestamp2
  | 0x12 => Ok TDateTime2
  | 0x13 => Ok TTime2
  | 0xf6 => Ok TNewDecimal
  | 0xf9 => Ok TTinyBlob
  | 0xfa => Ok TMediumBlob
  | 0xfb => Ok TLongBlob
  | 0xfc => Ok TBlob
  | 0xfd => Ok TVarString
  | 0xfe => Ok TString
  | 0xff => Ok TGeometry
  | _ => Err EConstraint
  end.
(** col.rs:101-137 *)
Definition column_type_code (ct : column_type) : N :=
  match ct with
  | TDecimal => 0x00
  | TTiny => 0x01
  | TShort => 0x02
  | TLong => 0x03
  | TFloat => 0x04
  | TDouble => 0x05
  | TNull => 0x06
  | TTimestamp => 0x07
  | TLongLong => 0x08
  | TInt24 => 0x09
  | TDate => 0x0a
  | TTime => 0x0b
  | TDateTime => 0x0c
  | TYear => 0x0d
  | TVarchar => 0x0f
  | TBit => 0x10
  | TTimestamp2 => 0x11
  | TDateTime2 => 0x12
  | TTime2 => 0x13
  | TNewDecimal => 0xf6
  | TTinyBlob => 0xf9
  | TMediumBlob => 0xfa
  | TLongBlob => 0xfb
  | TBlob => 0xfc
  | TVarString => 0xfd
  | TString => 0xfe
  | TGeometry => 0xff
  end.

(** ** Column meta of table-map events *)

(** col.rs:213-250 *)
Inductive column_meta : Type :=
| MDecimal | MTiny | MShort | MLong
| MFloat (pack_len : N) | MDouble (pack_len : N)
| MNull
| MTimestamp (frac : N)
| MLongLong | MInt24 | MDate | MTime
| MDateTime (frac : N)
| MYear
| MBit (bits bytes : N)
| MTime2 (frac : N)
| MNewDecimal (prec frac : N)
| MEnum (pack_len : N)
| MBlob (pack_len : N)
| MVarString (max_len : N)
| MString (from_len : N)
| MGeometry (pack_len : N).

(** col.rs:139-178 *)
Definition column_type_of_meta (m : column_meta) : column_type :=
  match m with
  | MDecimal => TDecimal
  | MTiny => TTiny
  | MShort => TShort
  | MLong => TLong
  | MFloat _ => TFloat
  | MDouble _ => TDouble
  | MNull => TNull
  | MTimestamp _ => TTimestamp
  | MLongLong => TLongLong
  | MInt24 => TInt24
  | MDate => TDate
  | MTime => TTime
  | MDateTime _ => TDateTime
  | MYear => TYear
  | MBit _ _ => TBit
  | MTime2 _ => TTime2
  | MNewDecimal _ _ => TNewDecimal
  | MEnum _ => TString
  | MBlob _ => TBlob
  | MVarString _ => TVarString
  | MString _ => TString
  | MGeometry _ => TGeometry
  end.

(** col.rs:253-341 *)
Definition read_column_meta (ct : column_type) : parser column_meta :=
  match ct with
  | TDecimal => pret MDecimal
  | TTiny => pret MTiny
  | TShort => pret MShort
  | TLong => pret MLong
  | TFloat => pmap MFloat read_u8
  | TDouble => pmap MDouble read_u8
  | TNull => pret MNull
  | TTimestamp => ppanic PUnimplemented
  | TTimestamp2 => pmap MTimestamp read_u8
  | TLongLong => pret MLongLong
  | TInt24 => pret MInt24
  | TDate => pret MDate
  | TTime => ppanic PUnimplemented
  | TTime2 => pmap MTime2 read_u8
  | TDateTime => ppanic PUnimplemented
  | TDateTime2 => pmap MDateTime read_u8
  | TYear => pret MYear
  | TBit => bits <- read_u8 ;; bytes <- read_u8 ;; pret (MBit bits bytes)
  | TNewDecimal => prec <- read_u8 ;; frac <- read_u8 ;; pret (MNewDecimal prec frac)
  | TTinyBlob | TMediumBlob | TLongBlob | TBlob => pmap MBlob read_u8
  | TVarchar | TVarString => pmap MVarString read_le_u16
  | TString =>
      real_type <- read_u8 ;;
      field_len <- read_u8 ;;
      match N.lor real_type 0xf0 with
      | 0xf7 => pret (MEnum field_len)
      | 0xfe => pret (MString (N.shiftl (N.lxor (N.land (N.shiftr real_type 4) 3) 3) 8 + field_len))
      | _ => ppanic PUnimplemented
      end
  | TGeometry => pmap MGeometry read_u8
  end.
(** col.rs:184-192; a [ColumnMeta] takes 4 bytes *)
Fixpoint read_column_metas_loop (n : nat) (i : nat) (col_defs : bytes) : parser (list column_meta) :=
  match n with
  | O => pret []
  | S n =>
      code <- plift (bget col_defs i) ;;
      ct <- plift (column_type_of (b2n code)) ;;
      m <- read_column_meta ct ;;
      ms <- read_column_metas_loop n (S i) col_defs ;;
      pret (m :: ms)
  end.
Definition read_column_metas (col_cnt : N) (col_defs : bytes) : parser (list column_meta) :=
  plift (with_capacity 4 col_cnt) ;;; read_column_metas_loop (N.to_nat col_cnt) 0 col_defs.

(** ** Binary protocol values *)

(** col.rs:348-371.  Floats are bit patterns. *)
Inductive binary_value : Type :=
| BNull
| BTiny (n : N) | BShort (n : N) | BLong (n : N)
| BFloat (bits : N) | BDouble (bits : N)
| BTimestamp (t : my_datetime)
| BLongLong (n : N) | BInt24 (n : N)
| BDate (year month day : N)
| BTime (t : my_time)
| BDateTime (t : my_datetime)
| BYear (n : N)
| BBit (bs : bytes) | BNewDecimal (bs : bytes) | BBlob (bs : bytes)
| BVarString (bs : bytes) | BString (bs : bytes) | BGeometry (bs : bytes).

(** the length encoded string arms, e.g. col.rs:378-388 *)
Definition read_les_value (wrap : bytes -> binary_value) : parser binary_value :=
  v <- read_len_enc_str ;;
  match v with
  | LesNull => pret BNull
  | LesErr => pfail EConstraint
  | LesBytes bs => pret (wrap bs)
  end.
(** col.rs:400-421 *)
Definition read_binary_date : parser binary_value :=
  len <- read_u8 ;;
  match len with
  | 0 => pret (BDate 0 0 0)
  | 4 => year <- read_le_u16 ;; month <- read_u8 ;; day <- read_u8 ;; pret (BDate year month day)
  | _ => pfail EConstraint
  end.
(** col.rs:422-473 *)
Definition read_binary_time : parser binary_value :=
  len <- read_u8 ;;
  match len with
  | 0 => pret (BTime (mk_time false 0 0 0 0 0))
  | 8 =>
      negative <- read_u8 ;;
      let negative := negative =? 1 in
      days <- read_le_u32 ;;
      hour <- read_u8 ;; minute <- read_u8 ;; second <- read_u8 ;;
      pret (BTime (mk_time negative days hour minute second 0))
  | 12 =>
      negative <- read_u8 ;;
      let negative := negative =? 1 in
      days <- read_le_u32 ;;
      hour <- read_u8 ;; minute <- read_u8 ;; second <- read_u8 ;;
      micro <- read_le_u32 ;;
      pret (BTime (mk_time negative days hour minute second micro))
  | _ => pfail EConstraint
  end.
(** col.rs:474-545 *)
Definition read_binary_datetime : parser binary_value :=
  len <- read_u8 ;;
  match len with
  | 0 => pret (BDateTime (mk_dt 0 0 0 0 0 0 0))
  | 4 =>
      year <- read_le_u16 ;; month <- read_u8 ;; day <- read_u8 ;;
      pret (BDateTime (mk_dt year month day 0 0 0 0))
  | 7 =>
      year <- read_le_u16 ;; month <- read_u8 ;; day <- read_u8 ;;
      hour <- read_u8 ;; minute <- read_u8 ;; second <- read_u8 ;;
      pret (BDateTime (mk_dt year month day hour minute second 0))
  | 11 =>
      year <- read_le_u16 ;; month <- read_u8 ;; day <- read_u8 ;;
      hour <- read_u8 ;; minute <- read_u8 ;; second <- read_u8 ;;
      micro <- read_le_u32 ;;
      pret (BDateTime (mk_dt year month day hour minute second micro))
  | _ => pfail EConstraint
  end.
(** col.rs:376-618 *)
Definition read_binary_value (ct : column_type) : parser binary_value :=
  match ct with
  | TDecimal => read_les_value BNewDecimal
  | TTiny => pmap BTiny read_u8
  | TShort => pmap BShort read_le_u16
  | TLong => pmap BLong read_le_u32
  | TFloat => pmap BFloat read_le_f32
  | TDouble => pmap BDouble read_le_f64
  | TNull => pret BNull
  | TLongLong => pmap BLongLong read_le_u64
  | TInt24 => pmap BInt24 read_le_u32
  | TDate => read_binary_date
  | TTime | TTime2 => read_binary_time
  | TTimestamp | TTimestamp2 | TDateTime | TDateTime2 => read_binary_datetime
  | TYear => pmap BYear read_le_u16
  | TBit => read_les_value BBit
  | TNewDecimal => read_les_value BNewDecimal
  | TTinyBlob | TMediumBlob | TLongBlob | TBlob => read_les_value BBlob
  | TVarchar | TVarString => read_les_value BVarString
  | TString => read_les_value BString
  | TGeometry => read_les_value BGeometry
  end.

(** the field sequences written at col.rs:653-658, 682-686, ... *)
Definition write_ymd (year month day : N) : bytes := write_le_u16 year ++ write_u8 month ++ write_u8 day.
Definition write_hms (hour minute second : N) : bytes := write_u8 hour ++ write_u8 minute ++ write_u8 second.
(** col.rs:670-696 *)
Definition write_binary_time (t : my_time) : bytes :=
  let '(mk_time negative days hour minute second micro) := t in
  if N.lor (N.lor (N.lor (N.lor days hour) minute) second) micro =? 0 then write_u8 0
  else if micro =? 0 then
    write_u8 8 ++ write_u8 (if negative then 1 else 0) ++ write_le_u32 days ++ write_hms hour minute second
  else
    write_u8 12 ++ write_u8 (if negative then 1 else 0) ++ write_le_u32 days ++ write_hms hour minute second
    ++ write_le_u32 micro.
(** col.rs:697-739 *)
Definition write_binary_datetime (t : my_datetime) : bytes :=
  let '(mk_dt year month day hour minute second micro) := t in
  if N.lor (N.lor (N.lor (N.lor (N.lor (N.lor year month) day) hour) minute) second) micro =? 0
  then write_u8 0
  else if N.lor (N.lor (N.lor hour minute) second) micro =? 0
  then write_u8 4 ++ write_ymd year month day
  else if micro =? 0
  then write_u8 7 ++ write_ymd year month day ++ write_hms hour minute second
  else write_u8 11 ++ write_ymd year month day ++ write_hms hour minute second ++ write_le_u32 micro.
(** col.rs:621-744 *)
Definition write_binary_value (v : binary_value) : bytes :=
  match v with
  | BBit bs | BNewDecimal bs | BBlob bs | BVarString bs | BString bs | BGeometry bs =>
      les_write (LesBytes bs)
  | BTiny n => write_u8 n
  | BShort n => write_le_u16 n
  | BLong n => write_le_u32 n
  | BFloat n => write_le_f32 n
  | BDouble n => write_le_f64 n
  | BNull => []
  | BTimestamp (mk_dt year month day hour minute second _) =>
      write_u8 7 ++ write_ymd year month day ++ write_hms hour minute second
  | BLongLong n => write_le_u64 n
  | BInt24 n => write_le_u32 n
  | BDate year month day => write_u8 4 ++ write_ymd year month day
  | BTime t => write_binary_time t
  | BDateTime t => write_binary_datetime t
  | BYear n => write_le_u16 n
  end.

(** ** Binlog values *)

(** col.rs:778-784 *)
Inductive my_enum : Type :=
| Pack1 (n : N) | Pack2 (n : N) | Pack3 (n : N) | Pack4 (n : N) | Pack8 (n : N).
(** col.rs:787-795 *)
Definition enum_to_u64 (e : my_enum) : N :=
  match e with Pack1 n => n | Pack2 n => n | Pack3 n => n | Pack4 n => n | Pack8 n => n end.

(** col.rs:751-775 *)
Inductive binlog_value : Type :=
| LNull
| LTiny (n : N) | LShort (n : N) | LLong (n : N)
| LFloat (bits : N) | LDouble (bits : N)
| LTimestamp (secs : N)
| LLongLong (n : N) | LInt24 (n : N)
| LDate (year month day : N)
| LTime (t : my_time)
| LDateTime (t : my_datetime)
| LYear (n : N)
| LBit (bs : bytes) | LNewDecimal (d : my_decimal) | LEnum (e : my_enum) | LBlob (bs : bytes)
| LVarString (bs : bytes) | LString (bs : bytes) | LGeometry (bs : bytes).

(** col.rs:802-946 *)
Definition read_binlog_value (m : column_meta) : parser binlog_value :=
  match m with
  | MDecimal => ppanic PUnimplemented
  | MTiny => pmap LTiny read_u8
  | MShort => pmap LShort read_le_u16
  | MLong => pmap LLong read_le_u32
  | MFloat _ => pmap LFloat read_le_f32
  | MDouble _ => pmap LDouble read_le_f64
  | MNull => pret LNull
  | MTimestamp _ => pmap LTimestamp read_be_u32
  | MLongLong => pmap LLongLong read_le_u64
  | MInt24 => pmap LInt24 read_le_u24
  | MDate =>
      n <- read_le_u24 ;;
      let day := trunc 8 (N.land n 31) in
      let month := trunc 8 (N.land (N.shiftr n 5) 15) in
      let year := trunc 16 (N.shiftr n 9) in
      pret (LDate year month day)
  | MTime =>
      n <- read_le_u24 ;;
      let negative := N.land n 0x800000 =? 0x800000 in
      let n := if negative then (2 ^ 32 - N.lor n 0xff000000) mod 2 ^ 32 else n in
      let second := trunc 8 (n mod 100) in
      let minute := trunc 8 (n / 100 mod 100) in
      let hours := n / 10000 in
      let days := hours / 24 in
      let hour := trunc 8 (hours - days * 24) in
      pret (LTime (mk_time negative days hour minute second 0))
  | MTime2 frac => pmap LTime (time_from_binlog frac)
  | MDateTime frac => pmap LDateTime (datetime_from_binlog frac)
  | MYear =>
      n <- read_u8 ;;
      pret (LYear (if n =? 0 then 0 else n + 1900))
  | MBit bits bytes =>
      len <- plift (cadd 8 bytes (if 0 <? bits then 1 else 0)) ;;
      pmap LBit (read_len len)
  | MNewDecimal prec frac =>
      if prec <? frac then ppanic PAssert
      else pmap LNewDecimal (read_decimal (prec - frac) frac)
  | MEnum pack_len =>
      match pack_len with
      | 1 => pmap (fun n => LEnum (Pack1 n)) read_u8
      | 2 => pmap (fun n => LEnum (Pack2 n)) read_le_u16
      | 3 => pmap (fun n => LEnum (Pack3 n)) read_le_u24
      | 4 => pmap (fun n => LEnum (Pack4 n)) read_le_u32
      | 8 => pmap (fun n => LEnum (Pack8 n)) read_le_u64
      | _ => pfail EConstraint
      end
  | MBlob pack_len =>
      len <- match pack_len with
             | 1 => read_u8
             | 2 => read_le_u16
             | 3 => read_le_u24
             | 4 => read_le_u32
             | _ => ppanic PUnreachable
             end ;;
      pmap LBlob (read_len len)
  | MVarString max_len =>
      actual_len <- (if max_len <? 256 then read_u8 else read_le_u16) ;;
      if max_len <? actual_len then ppanic PAssert
      else pmap LVarString (read_len actual_len)
  | MString from_len =>
      len <- (if 0xff <? from_len then read_le_u16 else read_u8) ;;
      pmap LString (read_len len)
  | MGeometry _ => ppanic PUnimplemented
  end.

(** ** Column definitions *)

(** col.rs:1039-1056: all sixteen bits are defined *)
Definition all_column_flags : N := 0xffff.
Definition CF_UNSIGNED : N := 0x0020.
Definition CF_PRIMARY_KEY : N := 0x0002.
(** col.rs:953-976 *)
Record column_def := mk_cd {
  cd_catalog : bytes; cd_schema : bytes; cd_table : bytes; cd_org_table : bytes;
  cd_name : bytes; cd_org_name : bytes; cd_charset : N; cd_col_len : N;
  cd_type : column_type; cd_flags : N; cd_decimals : N; cd_default : bytes }.
(** bytes-parser/src/my.rs:211-216, [LenEncStr::into_string] *)
Definition les_into_string (s : len_enc_str) : res bytes :=
  match s with LesBytes bs => from_utf8 bs | _ => Ok [] end.
(** the idiom [input.read_len_enc_str()?.into_string()?], e.g. col.rs:984-985 *)
Definition read_les_string : parser bytes := s <- read_len_enc_str ;; plift (les_into_string s).
(** col.rs:979-981 *)
Definition cd_unsigned (cd : column_def) : bool := contains (cd_flags cd) CF_UNSIGNED.
(** col.rs:983-1028 *)
Definition read_column_def (field_list : bool) : parser column_def :=
  catalog <- read_les_string ;;
  schema <- read_les_string ;;
  table <- read_les_string ;;
  org_table <- read_les_string ;;
  name <- read_les_string ;;
  org_name <- read_les_string ;;
  read_len_enc_int ;;;
  charset <- read_le_u16 ;;
  col_len <- read_le_u32 ;;
  ct <- read_u8 ;;
  ct <- plift (column_type_of ct) ;;
  flags <- read_le_u16 ;;
  flags <- match from_bits all_column_flags flags with Some f => pret f | None => pfail EConstraint end ;;
  decimals <- read_u8 ;;
  read_len 2 ;;;
  default_values <- (if field_list then read_les_string else pret []) ;;
  pret (mk_cd catalog schema table org_table name org_name charset col_len ct flags decimals default_values).
