(** * Independent specification: MySQL length encoded integers and strings

    https://dev.mysql.com/doc/internals/en/integer.html : values below 251 are
    one byte; below 2^16 are 0xfc + 2 bytes; below 2^24 are 0xfd + 3 bytes; other
    values below 2^64 are 0xfe + 8 bytes. 0xfb is SQL NULL, 0xff is an error. *)
From Coq Require Import List NArith.
From Verif Require Import Model.Base Spec.Nums.
Import ListNotations.
Open Scope N_scope.

Inductive lenenc : N -> bytes -> Prop :=
| lenenc1 n b : n < 251 -> Byte.to_N b = n -> lenenc n [b]
| lenenc3 n s : 251 <= n -> n < 2 ^ 16 -> is_le 2 n s -> lenenc n (xfc :: s)
| lenenc4 n s : 2 ^ 16 <= n -> n < 2 ^ 24 -> is_le 3 n s -> lenenc n (xfd :: s)
| lenenc9 n s : 2 ^ 24 <= n -> n < 2 ^ 64 -> is_le 8 n s -> lenenc n (xfe :: s).

(** A string preceded by its length. *)
Definition lenenc_str (s enc : bytes) : Prop :=
  exists l, lenenc (N.of_nat (length s)) l /\ enc = l ++ s.

(** Any (also non minimal) encoding that a reader must accept. *)
Inductive lenenc_any : N -> bytes -> Prop :=
| any1 n b : n < 251 -> Byte.to_N b = n -> lenenc_any n [b]
| any3 n s : is_le 2 n s -> lenenc_any n (xfc :: s)
| any4 n s : is_le 3 n s -> lenenc_any n (xfd :: s)
| any9 n s : is_le 8 n s -> lenenc_any n (xfe :: s).
