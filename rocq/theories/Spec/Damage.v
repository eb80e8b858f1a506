(** * Independent specification: bytes that change on a disk or on the way

    Bits are counted in the order in which they are sent: byte by byte, the lowest bit of a byte
    first.  Damage flips bits; it neither adds nor removes any. *)
From Coq Require Import List NArith Arith Bool.
From Verif Require Import Model.Base.
Import ListNotations.
Open Scope N_scope.

Definition byte_bits (b : byte) : list bool := map (N.testbit (b2n b)) [0; 1; 2; 3; 4; 5; 6; 7].
Definition bits (bs : bytes) : list bool := flat_map byte_bits bs.

(** the places where two strings have different bits *)
Definition flipped (bs bs' : bytes) (i : nat) : Prop := nth_error (bits bs) i <> nth_error (bits bs') i.

(** the flipped bits lie within [k] consecutive ones *)
Definition burst (k : nat) (bs bs' : bytes) : Prop :=
  bs' <> bs /\ length bs' = length bs /\ exists at_, forall i, flipped bs bs' i -> (at_ <= i < at_ + k)%nat.

(** two bits are flipped, [2^32 - 2] or fewer positions apart (512 MB) *)
Definition two_flips (bs bs' : bytes) : Prop :=
  length bs' = length bs /\ exists i j, (i < j)%nat /\ N.of_nat (j - i) < 2 ^ 32 - 1 /\
    forall k, flipped bs bs' k <-> k = i \/ k = j.

(** the four bytes of an event that hold its length *)
Definition length_field (bs : bytes) : bytes := firstn 4 (skipn 9 bs).
