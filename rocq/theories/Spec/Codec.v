(** * Independent specification: what it means to be a fixed width codec *)
From Coq Require Import List NArith ZArith.
From Verif Require Import Model.Base Spec.Nums.
Import ListNotations.
Open Scope N_scope.

(** [read] decodes exactly [k] bytes, to a value related to them by [means],
    and leaves whatever follows. *)
Definition reads {A} (k : nat) (means : bytes -> A -> Prop) (read : parser A) : Prop :=
  forall a rest, length a = k -> exists v, read (a ++ rest) = (Ok v, rest) /\ means a v.

(** [write] and [read] are inverse on the values [ok]; the written form has
    exactly [k] bytes and means the value. *)
Definition codec {A} (k : nat) (ok : A -> Prop) (means : bytes -> A -> Prop)
    (write : A -> bytes) (read : parser A) : Prop :=
  (forall v rest, ok v ->
     length (write v) = k /\ means (write v) v /\ read (write v ++ rest) = (Ok v, rest)) /\
  reads k means read /\
  (forall a v rest, length a = k -> read (a ++ rest) = (Ok v, rest) -> ok v /\ write v = a).

(** meanings *)
Definition means_le (a : bytes) (n : N) : Prop := n = le_val a.
Definition means_be (a : bytes) (n : N) : Prop := n = be_val a.
Definition means_sle (bits : Z) (a : bytes) (z : Z) : Prop := twos bits (le_val a) z.
Definition means_sbe (bits : Z) (a : bytes) (z : Z) : Prop := twos bits (be_val a) z.

(** value ranges *)
Definition unsigned (bits : N) (n : N) : Prop := n < 2 ^ bits.
Definition signed (bits : Z) (z : Z) : Prop := (- 2 ^ (bits - 1) <= z < 2 ^ (bits - 1))%Z.

(** A read of [k] bytes from too short an input reports the exact number of
    missing bytes and consumes nothing. *)
Definition short_reads {A} (k : nat) (read : parser A) : Prop :=
  forall bs, (length bs < k)%nat ->
    read bs = (Err (EIncomplete (Some (N.of_nat (k - length bs)))), bs).
