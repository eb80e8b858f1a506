(** * Independent specification: how a server reads COM_STMT_EXECUTE

    Written from the MySQL protocol documentation.  The server knows the number of
    parameters from the prepare phase. *)
From Coq Require Import List NArith ZArith Arith Bool.
From Verif Require Import Model.Base Model.Time Model.Stmt Spec.Wire Spec.BitmapSpec Spec.Packets Spec.Commands Spec.Values.
Import ListNotations.
Open Scope N_scope.

(** SQL values; floats are bit patterns, [VTime] has a sign, a time that is zero is
    not negative *)
Inductive sql_value : Type :=
| VNull
| VInt (z : Z)
| VFloat (bits : N) | VDouble (bits : N)
| VBytes (s : bytes)
| VDateTime (year month day hour minute second micro : N)
| VTime (neg : bool) (days hour minute second micro : N).

Definition dint (k : nat) (unsigned : bool) : dec sql_value :=
  if unsigned then n <-- dle k ;; dret (VInt (Z.of_N n)) else z <-- dsle k ;; dret (VInt z).
Definition ddatetime : dec sql_value :=
  len <-- dle 1 ;;
  if len =? 0 then dret (VDateTime 0 0 0 0 0 0 0)
  else
    y <-- dle 2 ;; m <-- dle 1 ;; d <-- dle 1 ;;
    if len =? 4 then dret (VDateTime y m d 0 0 0 0)
    else
      h <-- dle 1 ;; mi <-- dle 1 ;; s <-- dle 1 ;;
      if len =? 7 then dret (VDateTime y m d h mi s 0)
      else if len =? 11 then us <-- dle 4 ;; dret (VDateTime y m d h mi s us)
      else dfail.
Definition vtime (neg : bool) (days h m s us : N) : sql_value :=
  VTime (neg && negb (zero_time (mk_time neg days h m s us))) days h m s us.
Definition dtime : dec sql_value :=
  len <-- dle 1 ;;
  if len =? 0 then dret (vtime false 0 0 0 0 0)
  else
    neg <-- dle 1 ;; days <-- dle 4 ;; h <-- dle 1 ;; m <-- dle 1 ;; s <-- dle 1 ;;
    if len =? 8 then dret (vtime (neg =? 1) days h m s 0)
    else if len =? 12 then us <-- dle 4 ;; dret (vtime (neg =? 1) days h m s us)
    else dfail.

(** one parameter value of a type code, https://dev.mysql.com/doc/internals/en/binary-protocol-value.html *)
Definition dvalue (code : N) (unsigned : bool) : dec sql_value :=
  if existsb (N.eqb code) [0x00; 0x0f; 0x10; 0xf6; 0xf9; 0xfa; 0xfb; 0xfc; 0xfd; 0xfe; 0xff]
  then s <-- dlstr ;; dret (VBytes s)
  else if code =? 0x01 then dint 1 unsigned
  else if existsb (N.eqb code) [0x02; 0x0d] then dint 2 unsigned
  else if existsb (N.eqb code) [0x03; 0x09] then dint 4 unsigned
  else if code =? 0x08 then dint 8 unsigned
  else if code =? 0x04 then n <-- dle 4 ;; dret (VFloat n)
  else if code =? 0x05 then n <-- dle 8 ;; dret (VDouble n)
  else if existsb (N.eqb code) [0x07; 0x0a; 0x0c] then ddatetime
  else if code =? 0x0b then dtime
  else dfail.

(** parameters [i], [i+1], ... : NULL exactly when bit [i] of the bitmap is set *)
Fixpoint dvalues (i : nat) (types : list (N * bool)) (bm : bytes) : dec (list sql_value) :=
  match types with
  | [] => dret []
  | (code, unsigned) :: types =>
      v <-- (if bit bm i then dret VNull else dvalue code unsigned) ;;
      vs <-- dvalues (S i) types bm ;;
      dret (v :: vs)
  end.

Record execute := mk_ex { ex_stmt : N; ex_flags : N; ex_iterations : N; ex_params : list sql_value }.
Definition dexecute (n_params : nat) : dec execute :=
  cmd <-- dle 1 ;;
  if cmd =? 0x17 then
    id <-- dle 4 ;; flags <-- dle 1 ;; iter <-- dle 4 ;;
    match n_params with
    | O => _ <-- dend ;; dret (mk_ex id flags iter [])
    | _ =>
        bm <-- dbytes ((n_params + 7) / 8) ;;
        bound <-- dle 1 ;;
        if bound =? 1 then
          types <-- dlist n_params (c <-- dle 1 ;; f <-- dle 1 ;; dret (c, 0x80 <=? f)) ;;
          vs <-- dvalues 0 types bm ;;
          _ <-- dend ;;
          dret (mk_ex id flags iter vs)
        else dfail
    end
  else dfail.
(** a packet with [n_params] parameters *)
Definition server_execute (n_params : nat) (packet : bytes) : option execute :=
  option_map fst (dexecute n_params packet).

(** ** What the application's arguments mean *)
Definition date_fields_ok (d : naive_date) : Prop := nd_year d < 2 ^ 16 /\ nd_month d < 2 ^ 8 /\ nd_day d < 2 ^ 8.
Definition clock_ok (t : naive_time) : Prop :=
  nt_hour t < 24 /\ nt_minute t < 60 /\ nt_second t < 60 /\ nt_nano t < 1000000000.
Definition in_int (bits : Z) (z : Z) : Prop := (- 2 ^ (bits - 1) <= z < 2 ^ (bits - 1))%Z.
(** the argument is a value of its Rust type (leap seconds and years beyond 65535 excluded;
    strings of exactly 251 bytes excluded, see the findings) *)
Definition arg_ok (a : arg) : Prop :=
  match a with
  | ANull | ABool _ => True
  | AI8 z => in_int 8 z
  | AU8 n => n < 2 ^ 8
  | AI16 z => in_int 16 z
  | AU16 n => n < 2 ^ 16
  | AI32 z => in_int 32 z
  | AU32 n => n < 2 ^ 32
  | AI64 z => in_int 64 z
  | AU64 n => n < 2 ^ 64
  | AF32 n => n < 2 ^ 32
  | AF64 n => n < 2 ^ 64
  | AMyYear n => n < 2 ^ 16
  | ADate d => date_fields_ok d
  | AMyTime t => time_fields_ok t
  | ANaiveDateTime t => date_fields_ok (ndt_date t) /\ clock_ok (ndt_time t)
  | AMyDateTime t => datetime_fields_ok t
  | ATime _ days t => days < 2 ^ 32 /\ clock_ok t
  | ADecimal s | AMyBit s | AString s | AVec s => str_ok s
  end.
(** sub-microsecond digits are dropped: MySQL cannot store them *)
Definition arg_value (a : arg) : sql_value :=
  match a with
  | ANull => VNull
  | AI8 z | AI16 z | AI32 z | AI64 z => VInt z
  | AU8 n | AU16 n | AU32 n | AU64 n | AMyYear n => VInt (Z.of_N n)
  | ABool b => VInt (if b then 1 else 0)
  | AF32 n => VFloat n
  | AF64 n => VDouble n
  | ADecimal s | AMyBit s | AString s | AVec s => VBytes s
  | ADate d => VDateTime (nd_year d) (nd_month d) (nd_day d) 0 0 0 0
  | AMyTime t => vtime (t_neg t) (t_days t) (t_hour t) (t_minute t) (t_second t) (t_micro t)
  | ATime neg days t => vtime neg days (nt_hour t) (nt_minute t) (nt_second t) (nt_nano t / 1000)
  | ANaiveDateTime t =>
      VDateTime (nd_year (ndt_date t)) (nd_month (ndt_date t)) (nd_day (ndt_date t))
        (nt_hour (ndt_time t)) (nt_minute (ndt_time t)) (nt_second (ndt_time t)) (nt_nano (ndt_time t) / 1000)
  | AMyDateTime t =>
      VDateTime (dt_year t) (dt_month t) (dt_day t) (dt_hour t) (dt_minute t) (dt_second t) (dt_micro t)
  end.
