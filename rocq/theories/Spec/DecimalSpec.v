(** * Independent specification: MySQL's packed DECIMAL

    Written from mysql-server 5.7, strings/decimal.c ([decimal2bin]) and the manual's
    "DECIMAL data type characteristics": groups of nine decimal digits in four bytes,
    left-over digits in fewer bytes, big endian, first bit inverted, everything
    complemented for negative numbers. *)
From Coq Require Import List NArith Arith Bool.
From Verif Require Import Model.Base Spec.Wire Spec.Temporal.
Import ListNotations.
Open Scope N_scope.

(** bytes for up to eight left-over digits *)
Definition dig_bytes (n : N) : nat :=
  match n with 1 | 2 => 1%nat | 3 | 4 => 2%nat | 5 | 6 => 3%nat | 7 | 8 => 4%nat | _ => 0%nat end.
(** [k] groups of nine digits, most significant first *)
Fixpoint group9 (k : nat) (n : N) : list N :=
  match k with O => [] | S k => group9 k (n / 10 ^ 9) ++ [n mod 10 ^ 9] end.
(** the groups of an integer part [i] of [intg] digits: [intg mod 9] digits (if any) first *)
Definition int_groups (intg i : N) : list N :=
  let k := intg / 9 in
  (if intg mod 9 =? 0 then [] else [i / 10 ^ (9 * k)]) ++ group9 (N.to_nat k) (i mod 10 ^ (9 * k)).
(** the groups of a fraction [f] of [frac] digits: [frac mod 9] digits (if any) last *)
Definition frac_groups (frac f : N) : list N :=
  group9 (N.to_nat (frac / 9)) (f / 10 ^ (frac mod 9)) ++
  (if frac mod 9 =? 0 then [] else [f mod 10 ^ (frac mod 9)]).

(** widths in bytes of these groups *)
Definition int_widths (intg : N) : list nat :=
  (if intg mod 9 =? 0 then [] else [dig_bytes (intg mod 9)]) ++ repeat 4%nat (N.to_nat (intg / 9)).
Definition frac_widths (frac : N) : list nat :=
  repeat 4%nat (N.to_nat (frac / 9)) ++ (if frac mod 9 =? 0 then [] else [dig_bytes (frac mod 9)]).
Fixpoint wbes (ws : list nat) (gs : list N) : bytes :=
  match ws, gs with w :: ws, g :: gs => wbe w g ++ wbes ws gs | _, _ => [] end.

Definition complement (b : byte) : byte := n2b (N.lxor (b2n b) 0xff).
Definition flip_first (bs : bytes) : bytes :=
  match bs with b :: bs => n2b (N.lxor (b2n b) 0x80) :: bs | [] => [] end.
(** the number [-]i.f of type DECIMAL(intg + frac, frac) *)
Definition decimal_bytes (intg frac : N) (neg : bool) (i f : N) : bytes :=
  let body := wbes (int_widths intg ++ frac_widths frac) (int_groups intg i ++ frac_groups frac f) in
  flip_first (if neg then map complement body else body).

(** ** Printing *)
(** [s] is the decimal numeral of [n]: digits without leading zero *)
Definition numeral (n : N) (s : bytes) : Prop :=
  exists k, s = digits (S k) n /\ n < 10 ^ N.of_nat (S k) /\ (k = O \/ 10 ^ N.of_nat k <= n).
(** the text of [-]i.f with [frac] fractional digits *)
Definition decimal_text (frac : N) (neg : bool) (i f : N) (s : bytes) : Prop :=
  exists si, numeral i si /\
  s = (if neg then [n2b 45] else []) ++ si ++ (if frac =? 0 then [] else n2b 46 :: digits (N.to_nat frac) f).
(** [s] is the concatenation of the numerals of [gs]: what the library prints *)
Fixpoint numerals (gs : list N) (s : bytes) : Prop :=
  match gs with
  | [] => s = []
  | g :: gs => exists a b, numeral g a /\ numerals gs b /\ s = a ++ b
  end.
(** printed without zero padding of the groups *)
Definition unpadded_text (intg frac : N) (neg : bool) (i f : N) (s : bytes) : Prop :=
  exists si sf, numerals (int_groups intg i) si /\ numerals (frac_groups frac f) sf /\
  s = (if neg then [n2b 45] else []) ++ si ++ (if frac =? 0 then [] else n2b 46 :: sf).
(** no group needs padding: all groups of nine digits have nine digits, the last group of the
    fraction has [frac mod 9], and the first group of the integer part is not an empty zero *)
Definition full9 (g : N) : Prop := 10 ^ 8 <= g.
Definition no_padding (intg frac i f : N) : Prop :=
  (intg / 9 = 0 \/ 0 < i / 10 ^ (9 * (intg / 9))) /\
  Forall full9 (group9 (N.to_nat (intg / 9)) (i mod 10 ^ (9 * (intg / 9)))) /\
  Forall full9 (group9 (N.to_nat (frac / 9)) (f / 10 ^ (frac mod 9))) /\
  (frac mod 9 <> 0 -> frac mod 9 = 1 \/ 10 ^ (frac mod 9 - 1) <= f mod 10 ^ (frac mod 9)).
