(** * Independent specification: positional integers *)
From Coq Require Import List NArith ZArith.
From Coq Require Import Strings.Byte.
Import ListNotations.
Open Scope N_scope.

(** Little endian: byte [i] has weight [256^i]. *)
Fixpoint le_val (bs : list byte) : N :=
  match bs with
  | [] => 0
  | b :: r => Byte.to_N b + 256 * le_val r
  end.

(** Big endian is little endian of the reversed string. *)
Definition be_val (bs : list byte) : N := le_val (rev bs).

(** [z] is the signed (two's complement) reading of the [bits]-bit pattern [n]:
    the one integer in range that is congruent to it. *)
Definition twos (bits : Z) (n : N) (z : Z) : Prop :=
  (- 2 ^ (bits - 1) <= z < 2 ^ (bits - 1))%Z /\ (z mod 2 ^ bits = Z.of_N n mod 2 ^ bits)%Z.

(** [s] is [n] spelled in exactly [k] bytes, little endian *)
Definition is_le (k : nat) (n : N) (s : list byte) : Prop := length s = k /\ le_val s = n.
