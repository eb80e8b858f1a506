(** C01: fixed width integer codecs.  Vocabulary: Spec/Nums.v, Spec/Codec.v. *)
From Verif Require Import Model.Base Model.BytesParser Spec.Nums Spec.Codec Proofs.CodecProofs.
Open Scope N_scope.

Theorem C01_unsigned_codecs :
  codec 1 (unsigned 8) means_le write_u8 read_u8 /\
  codec 2 (unsigned 16) means_le write_le_u16 read_le_u16 /\
  codec 3 (unsigned 24) means_le write_le_u24 read_le_u24 /\
  codec 4 (unsigned 32) means_le write_le_u32 read_le_u32 /\
  codec 6 (unsigned 48) means_le write_le_u48 read_le_u48 /\
  codec 8 (unsigned 64) means_le write_le_u64 read_le_u64 /\
  codec 16 (unsigned 128) means_le write_le_u128 read_le_u128.
Proof. exact unsigned_le_codecs. Qed.
Print Assumptions C01_unsigned_codecs.

Theorem C01_signed_codecs :
  codec 1 (signed 8) (means_sle 8) write_i8 read_i8 /\
  codec 2 (signed 16) (means_sle 16) write_le_i16 read_le_i16 /\
  codec 3 (signed 24) (means_sle 24) write_le_i24 read_le_i24 /\
  codec 4 (signed 32) (means_sle 32) write_le_i32 read_le_i32 /\
  codec 6 (signed 48) (means_sle 48) write_le_i48 read_le_i48 /\
  codec 8 (signed 64) (means_sle 64) write_le_i64 read_le_i64 /\
  codec 16 (signed 128) (means_sle 128) write_le_i128 read_le_i128.
Proof. exact signed_le_codecs. Qed.
Print Assumptions C01_signed_codecs.

(** floats, as bit patterns *)
Theorem C01_float_codecs :
  codec 4 (unsigned 32) means_le write_le_f32 read_le_f32 /\
  codec 8 (unsigned 64) means_le write_le_f64 read_le_f64.
Proof. exact float_codecs. Qed.
Print Assumptions C01_float_codecs.

Theorem C01_big_endian_readers :
  reads 2 means_be read_be_u16 /\ reads 3 means_be read_be_u24 /\
  reads 4 means_be read_be_u32 /\ reads 5 means_be read_be_u40 /\
  reads 2 (means_sbe 16) read_be_i16 /\ reads 4 (means_sbe 32) read_be_i32.
Proof. exact be_readers. Qed.
Print Assumptions C01_big_endian_readers.

(** Finding: the 24 bit signed big endian reader is not big endian ... *)
Theorem C01_be_i24_refuted : ~ reads 3 (means_sbe 24) read_be_i24.
Proof. exact be_i24_refuted. Qed.
Print Assumptions C01_be_i24_refuted.
(** ... it reads little endian. *)
Theorem C01_be_i24_actual : reads 3 (means_sle 24) read_be_i24.
Proof. exact read_be_i24_is_le. Qed.
Print Assumptions C01_be_i24_actual.
(** Finding: the 40 bit signed big endian reader is not signed ... *)
Theorem C01_be_i40_refuted : ~ reads 5 (means_sbe 40) read_be_i40.
Proof. exact be_i40_refuted. Qed.
Print Assumptions C01_be_i40_refuted.
(** ... it returns the unsigned value. *)
Theorem C01_be_i40_actual : reads 5 (fun a z => z = Z.of_N (be_val a)) read_be_i40.
Proof. exact read_be_i40_is_unsigned. Qed.
Print Assumptions C01_be_i40_actual.

(** non-vacuity: concrete in-range values and their bytes *)
Example C01_ex1 : signed 24 (-2)%Z /\ write_le_i24 (-2)%Z = [xfe; xff; xff]
  /\ read_le_i24 [xfe; xff; xff; x07] = (Ok (-2)%Z, [x07]).
Proof. vm_compute. repeat split; congruence. Qed.
Example C01_ex2 : unsigned 48 0x0605040302ff /\ read_le_u48 [xff; x02; x03; x04; x05; x06; x09] = (Ok 0x0605040302ff, [x09]).
Proof. vm_compute. repeat split; congruence. Qed.
Example C01_ex3 : read_be_u40 [x01; x02; x03; x04; x05; x06] = (Ok 0x0102030405, [x06]).
Proof. reflexivity. Qed.
