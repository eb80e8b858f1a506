(** * Model of mybin-core/src/time.rs *)
From Verif Require Import Model.Base Model.BytesParser Model.Utf8 Model.Fmt.
Open Scope N_scope.

(** time.rs:14-22 *)
Record my_time := mk_time {
  t_neg : bool; t_days : N; t_hour : N; t_minute : N; t_second : N; t_micro : N }.
(** time.rs:113-122 *)
Record my_datetime := mk_dt {
  dt_year : N; dt_month : N; dt_day : N; dt_hour : N; dt_minute : N; dt_second : N; dt_micro : N }.

(** [a.overflowing_sub(b).0] on an unsigned type of [k] bits *)
Definition wsub (k a b : N) : N := (a + 2 ^ k - b) mod 2 ^ k.
(** [(-(p as i64)) as u64], which overflows for [p = 2^63] *)
Definition neg64 (p : N) : res N := if p =? 2 ^ 63 then Panic PArith else Ok ((2 ^ 64 - p) mod 2 ^ 64).

(** time.rs:213-250 *)
Definition packed_from_time_binary (frac : N) : parser (N * bool) :=
  hms <- read_be_u24 ;;
  let negative := negb (N.land hms 0x800000 =? 0x800000) in
  packed <- match frac with
    | 0 =>
        let int_part := wsub 32 hms 0x800000 in
        pret (N.shiftl int_part 24)
    | 1 | 2 =>
        let int_part := wsub 32 hms 0x800000 in
        frac_part <- read_u8 ;;
        pret (N.shiftl int_part 24 + frac_part * 10000)
    | 3 | 4 =>
        let int_part := wsub 32 hms 0x800000 in
        frac_part <- read_be_u16 ;;
        pret (N.shiftl int_part 24 + frac_part * 100)
    | 5 | 6 =>
        frac_part <- read_be_u24 ;;
        pret (wsub 64 (N.shiftl hms 24 + frac_part) 0x800000000000)
    | _ => pfail EConstraint
    end ;;
  packed <- (if negative then plift (neg64 packed) else pret packed) ;;
  pret (packed, negative).

(** time.rs:28-45 *)
Definition time_from_binlog (frac : N) : parser my_time :=
  ' (packed, negative) <- packed_from_time_binary frac ;;
  let hms := N.land (N.shiftr packed 24) 0xffffff in
  let hours := N.shiftr hms 12 mod N.shiftl 1 10 in
  let days := hours / 24 in
  let hour := trunc 8 (hours - days * 24) in
  let minute := trunc 8 (N.shiftr hms 6 mod N.shiftl 1 6) in
  let second := trunc 8 (hms mod N.shiftl 1 6) in
  let micro_second := N.land packed 0xffffff in
  pret (mk_time negative days hour minute second micro_second).

(** time.rs:253-291 *)
Definition packed_from_datetime_binary (frac : N) : parser N :=
  ymdhms <- read_be_u40 ;;
  let negative := negb (N.land ymdhms 0x8000000000 =? 0x8000000000) in
  let int_part := wsub 64 ymdhms 0x8000000000 in
  (* [int_part << 24] on u64 drops the high bits *)
  packed <- match frac with
    | 0 => pret (trunc 64 (N.shiftl int_part 24))
    | 1 | 2 =>
        frac_part <- read_u8 ;;
        plift (cadd 64 (trunc 64 (N.shiftl int_part 24)) (frac_part * 10000))
    | 3 | 4 =>
        frac_part <- read_be_u16 ;;
        plift (cadd 64 (trunc 64 (N.shiftl int_part 24)) (frac_part * 100))
    | 5 | 6 =>
        frac_part <- read_be_u24 ;;
        plift (cadd 64 (trunc 64 (N.shiftl int_part 24)) frac_part)
    | _ => pfail EConstraint
    end ;;
  if negative then plift (neg64 packed) else pret packed.

(** time.rs:128-150 *)
Definition datetime_from_binlog (frac : N) : parser my_datetime :=
  packed <- packed_from_datetime_binary frac ;;
  let ymdhms := N.land (N.shiftr packed 24) 0xffffffffff in
  let ymd := N.shiftr ymdhms 17 in
  let ym := N.shiftr ymd 5 in
  let hms := ymdhms mod N.shiftl 1 17 in
  let day := trunc 8 (ymd mod N.shiftl 1 5) in
  let month := trunc 8 (ym mod 13) in
  let year := trunc 16 (ym / 13) in
  let hour := trunc 8 (N.shiftr hms 12) in
  let minute := trunc 8 (N.shiftr hms 6 mod N.shiftl 1 6) in
  let second := trunc 8 (hms mod N.shiftl 1 6) in
  let micro_second := N.land packed 0xffffff in
  pret (mk_dt year month day hour minute second micro_second).

(** time.rs:60-109, the [Some] case: parsing TIME from the text protocol *)
Definition time_from_text (bs : bytes) : res my_time :=
  rbind (from_utf8 bs) (fun s =>
  let s := trim_start s in
  match split_on (n2b 58) s with
  | [p0; p1; p2] =>
      rbind (parse_i 64 p0) (fun hours =>
      let negative := (hours <? 0)%Z in
      (* [i64::abs] overflows on the smallest value *)
      rbind (if (hours =? - 2 ^ 63)%Z then Panic PArith else Ok (trunc 32 (Z.abs_N hours))) (fun hours =>
      let days := hours / 24 in
      let hour := trunc 8 (hours - days * 24) in
      rbind (parse_u 8 p1) (fun minute =>
      match split_on (n2b 46) p2 with
      | [s0] => rbind (parse_u 8 s0) (fun second => Ok (mk_time negative days hour minute second 0))
      | [s0; s1] =>
          rbind (parse_u 8 s0) (fun second =>
          rbind (if (length s1 =? 3)%nat
                 then rbind (parse_u 32 s1) (fun ms => cmul 32 ms 1000)
                 else parse_u 32 s1) (fun micro =>
          Ok (mk_time negative days hour minute second micro)))
      | _ => Err EParseValue
      end)))
  | _ => Err EParseValue
  end).

(** ** chrono: proleptic Gregorian dates *)
Definition leap (y : N) : bool := (y mod 4 =? 0) && negb (y mod 100 =? 0) || (y mod 400 =? 0).
Definition month_len (y m : N) : N :=
  match m with
  | 1 | 3 | 5 | 7 | 8 | 10 | 12 => 31
  | 4 | 6 | 9 | 11 => 30
  | 2 => if leap y then 29 else 28
  | _ => 0
  end.
(** [NaiveDate::from_ymd] panics unless this holds *)
Definition valid_date (y m d : N) : bool := (1 <=? m) && (m <=? 12) && (1 <=? d) && (d <=? month_len y m).
(** [and_hms_micro] panics unless this holds (micro seconds up to 1999999: leap seconds) *)
Definition valid_hms (h m s us : N) : bool := (h <? 24) && (m <? 60) && (s <? 60) && (us <? 2000000).

(** chrono's [NaiveDate] / [NaiveTime] / [NaiveDateTime] (only years that fit the calls made here) *)
Record naive_date := mk_nd { nd_year : N; nd_month : N; nd_day : N }.
Record naive_time := mk_nt { nt_hour : N; nt_minute : N; nt_second : N; nt_nano : N }.
Record naive_datetime := mk_ndt { ndt_date : naive_date; ndt_time : naive_time }.
(** [NaiveDate::from_ymd] *)
Definition from_ymd (y m d : N) : res naive_date :=
  if valid_date y m d then Ok (mk_nd y m d) else Panic PUnwrap.
(** [NaiveDate::and_hms_micro] *)
Definition and_hms_micro (nd : naive_date) (h m s us : N) : res naive_datetime :=
  if valid_hms h m s us then Ok (mk_ndt nd (mk_nt h m s (us * 1000))) else Panic PUnwrap.
(** the calendar date [d] days after 1970-01-01, the algorithm inside
    [NaiveDateTime::from_timestamp] *)
Definition civil_of_days (d : N) : naive_date :=
  let z := d + 719468 in
  let era := z / 146097 in
  let doe := z mod 146097 in
  let yoe := (doe - doe / 1460 + doe / 36524 - doe / 146096) / 365 in
  let doy := doe - (365 * yoe + yoe / 4 - yoe / 100) in
  let mp := (5 * doy + 2) / 153 in
  let day := doy - (153 * mp + 2) / 5 + 1 in
  let month := if mp <? 10 then mp + 3 else mp - 9 in
  mk_nd (yoe + era * 400 + (if month <=? 2 then 1 else 0)) month day.
(** [NaiveDateTime::from_timestamp(secs, 0)] for non-negative [secs] *)
Definition from_timestamp (secs : N) : naive_datetime :=
  let r := secs mod 86400 in
  mk_ndt (civil_of_days (secs / 86400)) (mk_nt (r / 3600) (r / 60 mod 60) (r mod 60) 0).

(** time.rs:153-165 *)
Definition datetime_of_naive (t : naive_datetime) : my_datetime :=
  mk_dt (trunc 16 (nd_year (ndt_date t))) (trunc 8 (nd_month (ndt_date t))) (trunc 8 (nd_day (ndt_date t)))
        (trunc 8 (nt_hour (ndt_time t))) (trunc 8 (nt_minute (ndt_time t))) (trunc 8 (nt_second (ndt_time t)))
        (nt_nano (ndt_time t) mod 1000000000 / 1000).
(** time.rs:167-176 *)
Definition naive_of_datetime (t : my_datetime) : res naive_datetime :=
  rbind (from_ymd (dt_year t) (dt_month t) (dt_day t)) (fun d =>
  and_hms_micro d (dt_hour t) (dt_minute t) (dt_second t) (dt_micro t)).
