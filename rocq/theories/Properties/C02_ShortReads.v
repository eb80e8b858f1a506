(** C02: short reads fail cleanly. *)
From Verif Require Import Model.Base Model.BytesParser Spec.Nums Spec.Codec
  Proofs.BytesParserProofs Proofs.CodecProofs.
Open Scope N_scope.

Theorem C02_short_fixed_width :
  short_reads 1 read_u8 /\ short_reads 1 read_i8 /\
  short_reads 2 read_le_u16 /\ short_reads 2 read_le_i16 /\
  short_reads 2 read_be_u16 /\ short_reads 2 read_be_i16 /\
  short_reads 3 read_le_u24 /\ short_reads 3 read_le_i24 /\
  short_reads 3 read_be_u24 /\ short_reads 3 read_be_i24 /\
  short_reads 4 read_le_u32 /\ short_reads 4 read_le_i32 /\
  short_reads 4 read_be_u32 /\ short_reads 4 read_be_i32 /\
  short_reads 5 read_be_u40 /\ short_reads 5 read_be_i40 /\
  short_reads 6 read_le_u48 /\ short_reads 6 read_le_i48 /\
  short_reads 8 read_le_u64 /\ short_reads 8 read_le_i64 /\
  short_reads 16 read_le_u128 /\ short_reads 16 read_le_i128 /\
  short_reads 4 read_le_f32.
Proof. exact short_reads_all. Qed.
Print Assumptions C02_short_fixed_width.

Theorem C02_short_counted : forall n bs, blen bs < n ->
  read_len n bs = (Err (EIncomplete (Some (n - blen bs))), bs).
Proof. exact read_len_short. Qed.
Print Assumptions C02_short_counted.

(** a missing delimiter is also an error without consumption *)
Theorem C02_missing_delimiter : forall b inclusive bs, ~ In b bs ->
  read_until b inclusive bs = (Err (EIncomplete None), bs).
Proof. exact read_until_none. Qed.
Print Assumptions C02_missing_delimiter.

(** Finding: the 64 bit float reader is the single exception: it under-reports
    the missing bytes by four, or panics when 5 to 7 bytes are left. *)
Theorem C02_f64_actual : forall bs, (length bs < 8)%nat ->
  read_le_f64 bs = if (length bs <=? 4)%nat
                   then (Err (EIncomplete (Some (N.of_nat (4 - length bs)))), bs)
                   else (Panic PArith, bs).
Proof. exact short_f64. Qed.
Print Assumptions C02_f64_actual.
Theorem C02_f64_refuted : ~ short_reads 8 read_le_f64.
Proof. exact (fun H => ltac:(specialize (H [x00; x00; x00; x00; x00] ltac:(repeat constructor)); discriminate H)). Qed.
Print Assumptions C02_f64_refuted.

Example C02_ex1 : read_le_u64 [x01; x02; x03] = (Err (EIncomplete (Some 5)), [x01; x02; x03]).
Proof. reflexivity. Qed.
Example C02_ex2 : read_len 7 [x01; x02] = (Err (EIncomplete (Some 5)), [x01; x02]).
Proof. reflexivity. Qed.
