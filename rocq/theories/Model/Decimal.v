(** * Model of mybin-core/src/decimal.rs *)
From Verif Require Import Model.Base Model.BytesParser Model.Fmt.
Open Scope N_scope.

(** decimal.rs:6-19 *)
Definition DIG_PER_DEC1 : N := 9.
Definition DIG_TO_BYTES : list N := [0; 1; 1; 2; 2; 3; 3; 4; 4; 4].
Definition POWERS_10 : list N :=
  [1; 10; 100; 1000; 10000; 100000; 1000000; 10000000; 100000000; 1000000000].
(** indexing these tables *)
Definition tget (t : list N) (i : N) : res N :=
  match nth_error t (N.to_nat i) with Some n => Ok n | None => Panic PIndex end.

(** decimal.rs:21-30 *)
Record my_decimal := mk_dec { d_intg : N; d_frac : N; d_neg : bool; d_buf : list N }.
(** decimal.rs:33-40 *)
Definition dec_zero (intg frac : N) : my_decimal := mk_dec intg frac false [].

(** decimal.rs:141-191 *)
Definition read_extra_fragment (rev_first_bit : bool) (len : N) (negative : bool) : parser N :=
  match len with
  | 1 =>
      n <- read_u8 ;;
      let n := if rev_first_bit then N.lxor n 0x80 else n in
      let n := if negative then N.lxor n 0xff else n in
      pret n
  | 2 =>
      n <- read_be_u16 ;;
      let n := if rev_first_bit then N.lxor n 0x8000 else n in
      let n := if negative then N.lxor n 0xffff else n in
      pret n
  | 3 =>
      n <- read_be_u24 ;;
      let n := if rev_first_bit then N.lxor n 0x800000 else n in
      let n := if negative then N.lxor n 0xffffff else n in
      pret (N.land n 0x00ffffff)
  | 4 =>
      n <- read_be_u32 ;;
      let n := if rev_first_bit then N.lxor n 0x80000000 else n in
      let n := if negative then N.lxor n 0xffffffff else n in
      pret n
  | _ => ppanic PUnreachable
  end.
(** decimal.rs:195-202 *)
Definition read_fragment (negative : bool) : parser N :=
  n <- read_be_u32 ;;
  pret (if negative then N.lxor n 0xffffffff else n).

(** decimal.rs:42-95; the debug log of a length mismatch (57-65) is not modelled *)
Definition read_decimal (intg frac : N) : parser my_decimal :=
  let intg0 := intg / DIG_PER_DEC1 in
  let frac0 := frac / DIG_PER_DEC1 in
  let intg0x := intg - intg0 * DIG_PER_DEC1 in
  let frac0x := frac - frac0 * DIG_PER_DEC1 in
  intg_len <- plift (tget DIG_TO_BYTES intg0x) ;;
  frac_len <- plift (tget DIG_TO_BYTES frac0x) ;;
  fun bs =>
  match bs with
  | [] => (Ok (dec_zero intg frac), bs)
  | b0 :: _ =>
      let negative := negb (N.land (b2n b0) 0x80 =? 0x80) in
      (a <- (if 0 <? intg0x then f <- read_extra_fragment true intg_len negative ;; pret [f] else pret []) ;;
       b <- prepeat (N.to_nat intg0) (read_fragment negative) ;;
       c <- prepeat (N.to_nat frac0) (read_fragment negative) ;;
       d <- (if 0 <? frac0x
             then f <- read_extra_fragment false frac_len negative ;;
                  p <- plift (tget POWERS_10 (DIG_PER_DEC1 - frac0x)) ;;
                  f <- plift (cmul 32 f p) ;;
                  pret [f]
             else pret []) ;;
       pret (mk_dec intg frac negative (a ++ b ++ c ++ d))) bs
  end.

(** [self.buf[i]] *)
Definition buf_at (d : my_decimal) (i : nat) : res N :=
  match nth_error (d_buf d) i with Some n => Ok n | None => Panic PIndex end.
(** [for _ in 0..n { write!("{}", self.buf[i]); i += 1 }] *)
Fixpoint fmt_frags (d : my_decimal) (i n : nat) : res bytes :=
  match n with
  | O => Ok []
  | S n => rbind (buf_at d i) (fun f => rmap (fun s => fmt_n f ++ s) (fmt_frags d (S i) n))
  end.
(** decimal.rs:98-135, [Display] *)
Definition fmt_decimal (d : my_decimal) : res bytes :=
  match d_buf d with
  | [] => Ok (fmt_n 0)
  | _ =>
      let intg0 := d_intg d / DIG_PER_DEC1 in
      let intg0x := d_intg d - intg0 * DIG_PER_DEC1 in
      let frac0 := d_frac d / DIG_PER_DEC1 in
      let frac0x := d_frac d - frac0 * DIG_PER_DEC1 in
      let sign := if d_neg d then [n2b 45] else [] in
      let i := if 0 <? intg0x then 1%nat else 0%nat in
      rbind (if 0 <? intg0x then rmap fmt_n (buf_at d 0) else Ok []) (fun a =>
      rbind (fmt_frags d i (N.to_nat intg0)) (fun b =>
      if d_frac d =? 0 then Ok (sign ++ a ++ b)
      else
        rbind (fmt_frags d (i + N.to_nat intg0) (N.to_nat frac0)) (fun c =>
        rbind (if 0 <? frac0x
               then rbind (buf_at d (i + N.to_nat intg0 + N.to_nat frac0)) (fun f =>
                    rbind (tget POWERS_10 (DIG_PER_DEC1 - frac0x)) (fun p => Ok (fmt_n (f / p))))
               else Ok []) (fun e =>
        Ok (sign ++ a ++ b ++ [n2b 46] ++ c ++ e)))))
  end.
