(** * Independent specification: bit [i] of a byte string (LSB first) *)
From Coq Require Import List NArith Arith.
From Verif Require Import Model.Base.
Import ListNotations.

Definition bit (bs : bytes) (i : nat) : bool :=
  N.testbit (Byte.to_N (nth (i / 8) bs x00)) (N.of_nat (i mod 8)).

(** The bits of [bs] from position [off] on. *)
Definition bits_from (bs : bytes) (off : nat) : list bool :=
  map (bit bs) (seq off (8 * length bs - off)).
