(** * Model of mybin-core/src/stmt.rs, cmd/stmt_execute.rs and cmd/stmt_prepare.rs *)
From Coq Require Import Strings.String.
From Verif Require Import Model.Base Model.BytesParser Model.LenEnc Model.Utf8 Model.Bitmap Model.Flags
  Model.Packet Model.Auth Model.Cmd Model.Fmt Model.Time Model.Decimal Model.Col.
Open Scope N_scope.

(** stmt.rs:107-111 *)
Record stmt_value := mk_sv { sv_type : column_type; sv_unsigned : bool; sv_val : binary_value }.

(** stmt.rs:114-119 *)
Definition sv_is_null (p : stmt_value) : bool :=
  match sv_type p with TNull => true | _ => false end.

(** ** Constructors *)
(** stmt.rs:269-282 *)
Definition sv_new (ct : column_type) (unsigned : bool) (v : binary_value) : stmt_value :=
  match ct with
  | TDecimal | TNewDecimal => mk_sv TNewDecimal false v
  | _ => mk_sv ct unsigned v
  end.
(** stmt.rs:284-290 *)
Definition new_null : stmt_value := mk_sv TNull false BNull.
(** stmt.rs:292-299; the argument is [BigDecimal::to_string] *)
Definition new_decimal (s : bytes) : stmt_value := mk_sv TNewDecimal false (BNewDecimal s).
(** stmt.rs:301-307; [to_string] panics if [Display] does *)
Definition new_mydecimal (d : my_decimal) : res stmt_value :=
  rmap (fun s => mk_sv TNewDecimal false (BNewDecimal s)) (fmt_decimal d).
(** stmt.rs:309-315 *)
Definition new_tinyint (z : Z) : stmt_value := mk_sv TTiny false (BTiny (to_unsigned 8 z)).
(** stmt.rs:317-323 *)
Definition new_unsigned_tinyint (n : N) : stmt_value := mk_sv TTiny true (BTiny n).
(** stmt.rs:325-331 *)
Definition new_smallint (z : Z) : stmt_value := mk_sv TShort false (BShort (to_unsigned 16 z)).
(** stmt.rs:333-339 *)
Definition new_unsigned_smallint (n : N) : stmt_value := mk_sv TShort true (BShort n).
(** stmt.rs:341-347 *)
Definition new_int (z : Z) : stmt_value := mk_sv TLong false (BLong (to_unsigned 32 z)).
(** stmt.rs:349-355 *)
Definition new_unsigned_int (n : N) : stmt_value := mk_sv TLong true (BLong n).
(** stmt.rs:357-363 *)
Definition new_float (bits : N) : stmt_value := mk_sv TFloat false (BFloat bits).
(** stmt.rs:365-371 *)
Definition new_double (bits : N) : stmt_value := mk_sv TDouble false (BDouble bits).
(** stmt.rs:373-387 *)
Definition new_timestamp (ts : naive_datetime) : stmt_value :=
  mk_sv TTimestamp false (BTimestamp (mk_dt
    (trunc 16 (nd_year (ndt_date ts))) (trunc 8 (nd_month (ndt_date ts))) (trunc 8 (nd_day (ndt_date ts)))
    (trunc 8 (nt_hour (ndt_time ts))) (trunc 8 (nt_minute (ndt_time ts))) (trunc 8 (nt_second (ndt_time ts)))
    0)).
(** stmt.rs:389-395 *)
Definition new_bigint (z : Z) : stmt_value := mk_sv TLongLong false (BLongLong (to_unsigned 64 z)).
(** stmt.rs:397-403 *)
Definition new_unsigned_bigint (n : N) : stmt_value := mk_sv TLongLong true (BLongLong n).
(** stmt.rs:405-415 *)
Definition new_date (d : naive_date) : stmt_value :=
  mk_sv TDate false (BDate (trunc 16 (nd_year d)) (trunc 8 (nd_month d)) (trunc 8 (nd_day d))).
(** stmt.rs:430-437 *)
Definition new_mytime (t : my_time) : stmt_value := mk_sv TTime false (BTime t).
(** stmt.rs:417-428 *)
Definition new_time (negative : bool) (days : N) (tm : naive_time) : stmt_value :=
  new_mytime (mk_time negative days (trunc 8 (nt_hour tm)) (trunc 8 (nt_minute tm)) (trunc 8 (nt_second tm))
                      (nt_nano tm mod 1000000000 / 1000)).
(** stmt.rs:452-458 *)
Definition new_mydatetime (t : my_datetime) : stmt_value := mk_sv TDateTime false (BDateTime t).
(** stmt.rs:439-450 *)
Definition new_datetime (ts : naive_datetime) : stmt_value :=
  new_mydatetime (mk_dt
    (trunc 16 (nd_year (ndt_date ts))) (trunc 8 (nd_month (ndt_date ts))) (trunc 8 (nd_day (ndt_date ts)))
    (trunc 8 (nt_hour (ndt_time ts))) (trunc 8 (nt_minute (ndt_time ts))) (trunc 8 (nt_second (ndt_time ts)))
    (nt_nano (ndt_time ts) mod 1000000000 / 1000)).
(** stmt.rs:460-467 *)
Definition new_year (n : N) : stmt_value := mk_sv TShort true (BShort n).
(** stmt.rs:469-475 *)
Definition new_myyear (n : N) : stmt_value := mk_sv TYear true (BYear n).
(** stmt.rs:477-483 *)
Definition new_varstring (bs : bytes) : stmt_value := mk_sv TVarString false (BVarString bs).
(** stmt.rs:486-492 *)
Definition new_string (bs : bytes) : stmt_value := mk_sv TString false (BString bs).
(** stmt.rs:494-500 *)
Definition new_text (bs : bytes) : stmt_value := mk_sv TBlob false (BBlob bs).
(** stmt.rs:502-508 *)
Definition new_bit (bs : bytes) : stmt_value := mk_sv TBit false (BBit bs).
(** stmt.rs:510-512 *)
Definition new_mybit (bs : bytes) : stmt_value := new_bit bs.
(** stmt.rs:514-520 *)
Definition new_blob (bs : bytes) : stmt_value := mk_sv TBlob false (BBlob bs).
(** stmt.rs:522-528 *)
Definition new_geometry (bs : bytes) : stmt_value := mk_sv TGeometry false (BGeometry bs).
(** stmt.rs:530-536 *)
Definition new_bool (b : bool) : stmt_value := mk_sv TTiny false (BTiny (if b then 1 else 0)).

(** stmt.rs:539-616 *)
Definition sv_of_binlog (v : binlog_value) (unsigned : bool) : res stmt_value :=
  match v with
  | LNull => Ok new_null
  | LTiny n => Ok (if unsigned then new_unsigned_tinyint n else new_tinyint (to_signed 8 n))
  | LShort n => Ok (if unsigned then new_unsigned_smallint n else new_smallint (to_signed 16 n))
  | LLong n => Ok (if unsigned then new_unsigned_int n else new_int (to_signed 32 n))
  | LFloat n => Ok (new_float n)
  | LDouble n => Ok (new_double n)
  | LTimestamp secs => Ok (new_timestamp (from_timestamp secs))
  | LLongLong n => Ok (if unsigned then new_unsigned_bigint n else new_bigint (to_signed 64 n))
  | LInt24 n =>
      Ok (if unsigned then new_unsigned_int n
          else if N.land n 0x800000 =? 0x800000 then new_int (to_signed 32 (N.lor n 0xff000000))
          else new_int (to_signed 32 n))
  | LDate y m d => rmap new_date (from_ymd y m d)
  | LTime t => Ok (new_mytime t)
  | LDateTime t =>
      rbind (from_ymd (dt_year t) (dt_month t) (dt_day t)) (fun d =>
      rmap new_timestamp (and_hms_micro d (dt_hour t) (dt_minute t) (dt_second t) (dt_micro t)))
  | LYear n => Ok (new_year n)
  | LBit bs => Ok (new_bit bs)
  | LNewDecimal d => new_mydecimal d
  | LEnum e => Ok (new_unsigned_bigint (enum_to_u64 e))
  | LBlob bs => Ok (new_blob bs)
  | LVarString bs => Ok (new_varstring bs)
  | LString bs => Ok (new_varstring bs)
  | LGeometry _ => Panic PUnimplemented
  end.

(** ** SQL literals *)

(** [String::push(b as char)]: Latin-1 code point in UTF-8 *)
Definition push_char (b : byte) : bytes :=
  if b2n b <? 0x80 then [b] else [n2b (0xc0 + b2n b / 64); n2b (0x80 + b2n b mod 64)].
(** stmt.rs:151-165, 210-213 *)
Definition fmt_datetime (t : my_datetime) : bytes :=
  fmt_pad 4 (dt_year t) ++ [n2b 45] ++ fmt_pad 2 (dt_month t) ++ [n2b 45] ++ fmt_pad 2 (dt_day t)
  ++ [n2b 32] ++ fmt_pad 2 (dt_hour t) ++ [n2b 58] ++ fmt_pad 2 (dt_minute t) ++ [n2b 58]
  ++ fmt_pad 2 (dt_second t).
(** stmt.rs:196-198, 214-216 *)
Definition fmt_micro (us : N) : bytes := if us =? 0 then [] else n2b 46 :: fmt_pad 6 us.
(** stmt.rs:184-200.  [days as i32 * 24 + hour] is checked i32 arithmetic. *)
Definition lit_time (t : my_time) : res bytes :=
  let days := to_signed 32 (trunc 32 (t_days t)) in
  let hour := (days * 24 + Z.of_N (t_hour t))%Z in
  if ((days * 24 <? - 2 ^ 31) || (2 ^ 31 <=? days * 24) || (2 ^ 31 <=? hour))%Z then Panic PArith
  else
    let h := if (100 <=? hour)%Z then fmt_z hour else fmt_padz 2 hour in
    Ok ((if t_neg t then [n2b 45] else []) ++ h
        ++ [n2b 58] ++ fmt_pad 2 (t_minute t) ++ [n2b 58] ++ fmt_pad 2 (t_second t)
        ++ fmt_micro (t_micro t)).
(** stmt.rs:220-238 *)
Definition lit_string (bs : bytes) : res bytes :=
  if negb (existsb (fun b => Byte.eqb b (n2b 39)) bs)
  then if utf8_valid bs then Ok bs else Panic PUnwrap
  else Ok (flat_map (fun b => if Byte.eqb b (n2b 39) then [n2b 39; n2b 39] else push_char b) bs).
(** stmt.rs:239-247: shifting by 64 bits or more panics *)
Fixpoint lit_bit_loop (bs : bytes) (i : N) (n : N) : res N :=
  match bs with
  | [] => Ok n
  | b :: bs =>
      if 64 <=? N.shiftl i 3 then Panic PArith
      else rbind (cadd 64 n (trunc 64 (N.shiftl (b2n b) (N.shiftl i 3)))) (lit_bit_loop bs (i + 1))
  end.
(** stmt.rs:248-258 *)
Definition lit_blob (bs : bytes) : bytes := [n2b 120; n2b 39] ++ hex_encode bs ++ [n2b 39].

Section Literals.
  (** [f32::to_string] and [f64::to_string] of the given bit pattern *)
  Variables fmt_f32 fmt_f64 : N -> bytes.

  (** stmt.rs:121-267: the text and whether the caller must put quotes around it *)
  Definition to_sql_literal (p : stmt_value) : res (bytes * bool) :=
    match sv_val p with
    | BNull => Ok (str "null", false)
    | BNewDecimal bs => if utf8_valid bs then Ok (bs, false) else Panic PUnwrap
    | BTiny n => Ok (if sv_unsigned p then fmt_n n else fmt_z (to_signed 8 n), false)
    | BShort n => Ok (if sv_unsigned p then fmt_n n else fmt_z (to_signed 16 n), false)
    | BLong n => Ok (if sv_unsigned p then fmt_n n else fmt_z (to_signed 32 n), false)
    | BFloat n => Ok (fmt_f32 n, false)
    | BDouble n => Ok (fmt_f64 n, false)
    | BTimestamp t => Ok (fmt_datetime t, true)
    | BLongLong n => Ok (if sv_unsigned p then fmt_n n else fmt_z (to_signed 64 n), false)
    | BDate y m d => Ok (fmt_pad 4 y ++ [n2b 45] ++ fmt_pad 2 m ++ [n2b 45] ++ fmt_pad 2 d, true)
    | BTime t => rmap (fun s => (s, true)) (lit_time t)
    | BDateTime t => Ok (fmt_datetime t ++ fmt_micro (dt_micro t), true)
    | BYear n => Ok (fmt_pad 4 n, false)
    | BVarString bs => rmap (fun s => (s, true)) (lit_string bs)
    | BString bs => rmap (fun s => (s, true)) (lit_string bs)
    | BBit bs => rmap (fun n => (fmt_n n, false)) (lit_bit_loop bs 0 0)
    | BBlob bs => Ok (lit_blob bs, false)
    | BGeometry bs => Ok (lit_blob bs, false)
    | BInt24 n =>
        Ok (if sv_unsigned p || (N.land n 0x800000 =? 0) then fmt_n n
            else fmt_z (to_signed 32 (N.lor n 0xff800000)), false)
    end.
End Literals.

(** ** cmd/stmt_execute.rs *)
(** stmt_execute.rs:24-62: [ComStmtExecute::single] followed by [write_to] *)
Definition write_stmt_execute (stmt_id : N) (params : list stmt_value) : bytes :=
  write_u8 (command_byte CmdStmtExecute) ++ write_le_u32 stmt_id ++ write_u8 0 ++ write_le_u32 1 ++
  match params with
  | [] => []
  | _ =>
      bm_from_iter (map sv_is_null params) 0 ++ write_u8 1 ++
      flat_map (fun p => write_u8 (column_type_code (sv_type p)) ++ write_u8 (if sv_unsigned p then 0x80 else 0)) params ++
      flat_map (fun p => write_binary_value (sv_val p)) params
  end.

(** ** cmd/stmt_prepare.rs *)
(** stmt_prepare.rs:40-48 *)
Record stmt_prepare_ok := mk_spo {
  spo_status : N; spo_stmt_id : N; spo_n_cols : N; spo_n_params : N; spo_n_warnings : N }.
(** stmt_prepare.rs:50-71 *)
Definition read_stmt_prepare_ok : parser stmt_prepare_ok :=
  status <- read_u8 ;;
  if negb (status =? 0) then pfail EConstraint
  else
    stmt_id <- read_le_u32 ;;
    n_cols <- read_le_u16 ;;
    n_params <- read_le_u16 ;;
    read_u8 ;;;
    n_warnings <- read_le_u16 ;;
    pret (mk_spo status stmt_id n_cols n_params n_warnings).

(** ** [ToColumnValue] *)
(** the Rust types with an implementation, stmt.rs:14-104; [ANull] is any [None] *)
Inductive arg : Type :=
| ANull
| AI8 (z : Z) | AU8 (n : N) | AI16 (z : Z) | AU16 (n : N)
| AI32 (z : Z) | AU32 (n : N) | AI64 (z : Z) | AU64 (n : N)
| ADecimal (display : bytes)
| AF32 (bits : N) | AF64 (bits : N)
| ADate (d : naive_date)
| AMyTime (t : my_time)
| ANaiveDateTime (t : naive_datetime)
| AMyYear (n : N)
| AMyBit (bs : bytes)
| ABool (b : bool)
| AString (s : bytes)
| ATime (negative : bool) (days : N) (t : naive_time)
| AVec (bs : bytes)
| AMyDateTime (t : my_datetime).
(** stmt.rs:24-104 *)
Definition to_col (a : arg) : stmt_value :=
  match a with
  | ANull => new_null
  | AI8 z => new_tinyint z
  | AU8 n => new_unsigned_tinyint n
  | AI16 z => new_smallint z
  | AU16 n => new_unsigned_smallint n
  | AI32 z => new_int z
  | AU32 n => new_unsigned_int n
  | AI64 z => new_bigint z
  | AU64 n => new_unsigned_bigint n
  | ADecimal s => new_decimal s
  | AF32 n => new_float n
  | AF64 n => new_double n
  | ADate d => new_date d
  | AMyTime t => new_mytime t
  | ANaiveDateTime t => new_datetime t
  | AMyYear n => new_myyear n
  | AMyBit bs => new_mybit bs
  | ABool b => new_bool b
  | AString s => new_varstring s
  | ATime neg days t => new_time neg days t
  | AVec bs => new_blob bs
  | AMyDateTime t => new_mydatetime t
  end.
