(** * Independent specification: MySQL's stored and textual forms of TIME and DATETIME

    Written from mysql-server 5.7, sql-common/my_time.c: [TIME_to_longlong_time_packed],
    [my_time_packed_to_binary], [TIME_to_longlong_datetime_packed],
    [my_datetime_packed_to_binary] and [my_time_to_str]. *)
From Coq Require Import List NArith ZArith Arith Bool.
From Verif Require Import Model.Base Model.Time Spec.Wire.
Import ListNotations.
Open Scope N_scope.

(** values of TIME(dec): up to 838:59:59, at most [dec] fractional digits, no minus zero *)
Definition hours_of (t : my_time) : N := t_days t * 24 + t_hour t.
Definition stored_time (dec : N) (t : my_time) : Prop :=
  dec <= 6 /\ t_hour t < 24 /\ hours_of t <= 838 /\ t_minute t < 60 /\ t_second t < 60 /\
  t_micro t < 1000000 /\ t_micro t mod 10 ^ (6 - dec) = 0 /\
  (t_neg t = true -> 0 < hours_of t + t_minute t + t_second t + t_micro t).
(** the packed number: sign, 10 bits hours, 6 bits minutes, 6 bits seconds, 24 bits microseconds *)
Definition packed_time (t : my_time) : Z :=
  let v := Z.of_N (((hours_of t * 2 ^ 12 + t_minute t * 2 ^ 6 + t_second t) * 2 ^ 24) + t_micro t) in
  if t_neg t then (- v)%Z else v.
(** the integer part is [p >> 24], the fraction [p % 2^24] in C, both with an offset of 2^23 *)
Definition time_bytes (dec : N) (t : my_time) : bytes :=
  let p := packed_time t in
  let int_part := wsbe 3 (p / 2 ^ 24 + 0x800000)%Z in
  let frac := Z.rem p (2 ^ 24) in
  match dec with
  | 1 | 2 => int_part ++ wsbe 1 (Z.quot frac 10000)
  | 3 | 4 => int_part ++ wsbe 2 (Z.quot frac 100)
  | 5 | 6 => wsbe 6 (p + 0x800000000000)%Z
  | _ => int_part
  end.

(** For the finding about negative fractions: the error in the microseconds, [2^24 - 256 * 10000]
    for one or two digits and [2^24 - 65536 * 100] for three or four. *)
Definition borrow_error (dec : N) : N := if dec <=? 2 then 14217216 else 10223616.

(** values of DATETIME(dec) *)
Definition stored_datetime (dec : N) (t : my_datetime) : Prop :=
  dec <= 6 /\ dt_year t <= 9999 /\ dt_month t <= 12 /\ dt_day t <= 31 /\ dt_hour t < 24 /\ dt_minute t < 60 /\
  dt_second t < 60 /\ dt_micro t < 1000000 /\ dt_micro t mod 10 ^ (6 - dec) = 0.
(** the fraction of DATETIME2, TIMESTAMP2: [(dec + 1) / 2] bytes, big endian *)
Definition frac_bytes (dec us : N) : bytes :=
  match dec with
  | 1 | 2 => wbe 1 (us / 10000)
  | 3 | 4 => wbe 2 (us / 100)
  | 5 | 6 => wbe 3 us
  | _ => []
  end.
Definition datetime_bytes (dec : N) (t : my_datetime) : bytes :=
  let ymd := (dt_year t * 13 + dt_month t) * 2 ^ 5 + dt_day t in
  let hms := dt_hour t * 2 ^ 12 + dt_minute t * 2 ^ 6 + dt_second t in
  wbe 5 (ymd * 2 ^ 17 + hms + 0x8000000000) ++ frac_bytes dec (dt_micro t).

(** ** text *)
(** [k] decimal digits of [n] *)
Fixpoint digits (k : nat) (n : N) : bytes :=
  match k with O => [] | S k => digits k (n / 10) ++ [n2b (48 + n mod 10)] end.
(** hours with two or three digits, sign, fraction of [dec] digits *)
Definition text_time (dec : N) (t : my_time) : bytes :=
  (if t_neg t then [n2b 45] else [])
  ++ digits (if hours_of t <? 100 then 2 else 3) (hours_of t) ++ [n2b 58]
  ++ digits 2 (t_minute t) ++ [n2b 58] ++ digits 2 (t_second t)
  ++ (if dec =? 0 then [] else n2b 46 :: digits (N.to_nat dec) (t_micro t / 10 ^ (6 - dec))).
(** For the findings about text: the microseconds the library reads when MySQL sends [dec] digits;
    right for 0, 3 and 6 digits only *)
Definition text_micro (dec us : N) : N :=
  if dec =? 0 then 0 else if dec =? 3 then us / 1000 * 1000 else us / 10 ^ (6 - dec).
