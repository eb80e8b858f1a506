(** C37: DECIMAL values as stored in the binlog, and their text.
    Specification: Spec/DecimalSpec.v. *)
From Coq Require Import Strings.String.
From Verif Require Import Model.Base Model.Auth Model.Fmt Model.Decimal Spec.Temporal Spec.DecimalSpec Proofs.DecimalProofs Proofs.DecimalExact.
Open Scope N_scope.

(** The stored number is read without touching what follows, and is printed right exactly when
    no group of digits needs zero padding; [unpadded_text] is what is printed otherwise. *)
Theorem C37_print : forall intg frac neg i f rest, intg mod 9 <> 0 -> i < 10 ^ intg ->
  exists d s, read_decimal intg frac (decimal_bytes intg frac neg i f ++ rest) = (Ok d, rest) /\
    fmt_decimal d = Ok s /\ unpadded_text intg frac neg i f s /\
    (decimal_text frac neg i f s <-> no_padding intg frac i f).
Proof. exact decimal_print. Qed.
Print Assumptions C37_print.

(** The exact condition, for every precision and scale: a stored number is read and printed right if and only if its
    integer part does not have a multiple of nine digits and no group of digits needs padding. *)
Theorem C37_exact : forall intg frac neg i f rest, 0 < intg + frac -> i < 10 ^ intg ->
  ((exists d s, read_decimal intg frac (decimal_bytes intg frac neg i f ++ rest) = (Ok d, rest) /\
      fmt_decimal d = Ok s /\ decimal_text frac neg i f s)
   <-> intg mod 9 <> 0 /\ no_padding intg frac i f).
Proof. exact decimal_exact. Qed.
Print Assumptions C37_exact.

(** Finding: zero padding inside the fraction is lost, 1.05 prints as "1.5": every value whose
    fraction of two to eight digits starts with a zero prints wrong (1.00 prints as "1.0"). *)
Theorem C37_padding_refuted : forall intg frac neg i f rest, intg mod 9 <> 0 -> i < 10 ^ intg ->
  1 < frac < 9 -> f < 10 ^ (frac - 1) ->
  exists d s, read_decimal intg frac (decimal_bytes intg frac neg i f ++ rest) = (Ok d, rest) /\
    fmt_decimal d = Ok s /\ ~ decimal_text frac neg i f s.
Proof. exact decimal_padding. Qed.
Print Assumptions C37_padding_refuted.

(** Finding: when the integer part has a multiple of nine digits the sign bit stays in the first
    group of digits, and 2^31 is added to it. *)
Theorem C37_nine_digits_refuted : forall k neg i rest, i < 10 ^ (9 * N.of_nat (S k)) ->
  exists d a b, read_decimal (9 * N.of_nat (S k)) 0 (decimal_bytes (9 * N.of_nat (S k)) 0 neg i 0 ++ rest) = (Ok d, rest) /\
    fmt_decimal d = Ok ((if neg then [n2b 45] else []) ++ a ++ b) /\
    numeral (i / 10 ^ (9 * N.of_nat k) + 2 ^ 31) a /\ numerals (group9 k (i mod 10 ^ (9 * N.of_nat k))) b.
Proof. exact decimal_9. Qed.
Print Assumptions C37_nine_digits_refuted.

(** Finding: DECIMAL(1,1), (3,3), (5,5) to (8,8) values panic (multiplication overflow). *)
Theorem C37_only_fraction_refuted : forall frac neg f rest, frac = 1 \/ frac = 3 \/ 5 <= frac <= 8 -> f < 10 ^ frac ->
  fst (read_decimal 0 frac (decimal_bytes 0 frac neg 0 f ++ rest)) = Panic PArith.
Proof. exact decimal_only_fraction. Qed.
Print Assumptions C37_only_fraction_refuted.

(** decimal.rs:205-240: the literals of the unit tests are [decimal_bytes] of these values *)
Example C37_example :
  decimal_bytes 10 4 false 1234567890 1234 = [x81; x0d; xfb; x38; xd2; x04; xd2] /\
  decimal_bytes 10 4 true 1234567890 1234 = [x7e; xf2; x04; xc7; x2d; xfb; x2d] /\
  no_padding 10 4 1234567890 1234 /\
  (let d := fst (read_decimal 10 4 (decimal_bytes 10 4 true 1234567890 1234)) in
   rbind d fmt_decimal = Ok (str "-1234567890.1234")) /\
  (let d := fst (read_decimal 3 2 (decimal_bytes 3 2 false 1 5)) in rbind d fmt_decimal = Ok (str "1.5")) /\
  (let d := fst (read_decimal 9 0 (decimal_bytes 9 0 false 7 0)) in rbind d fmt_decimal = Ok (str "2147483655")) /\
  fst (read_decimal 0 1 (decimal_bytes 0 1 false 0 5)) = Panic PArith.
Proof.
  split; [reflexivity|]. split; [reflexivity|]. split.
  { repeat split; try (right; reflexivity); try (intros _; right; vm_compute; discriminate);
      repeat constructor; vm_compute; discriminate. }
  repeat split; vm_compute; reflexivity.
Qed.
(** DECIMAL(18,4): fourteen digits before the point; 12345678901234.5678 is printed right and 12345678901234.0678 is not *)
Example C37_example_exact :
  (exists d s, read_decimal 14 4 (decimal_bytes 14 4 false 12345678901234 5678 ++ []) = (Ok d, []) /\ fmt_decimal d = Ok s /\ decimal_text 4 false 12345678901234 5678 s) /\
  ~ (exists d s, read_decimal 14 4 (decimal_bytes 14 4 false 12345678901234 678 ++ []) = (Ok d, []) /\ fmt_decimal d = Ok s /\ decimal_text 4 false 12345678901234 678 s).
Proof.
  split.
  - apply C37_exact; [reflexivity|reflexivity|]. split; [discriminate|].
    repeat split; try (right; reflexivity); try (intros _; right; vm_compute; discriminate); repeat constructor; vm_compute; discriminate.
  - rewrite C37_exact by reflexivity. intros (_ & _ & _ & _ & H). destruct (H ltac:(discriminate)) as [K|K]; [discriminate K|apply K; reflexivity].
Qed.
