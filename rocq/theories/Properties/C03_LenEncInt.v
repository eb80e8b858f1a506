(** C03: length encoded integers.  Vocabulary: Spec/LenEncSpec.v. *)
From Verif Require Import Model.Base Model.BytesParser Model.LenEnc Spec.Nums Spec.LenEncSpec Proofs.LenEncProofs.
Open Scope N_scope.

(** Every u64 except 251 is written in MySQL's (shortest) encoding. *)
Theorem C03_write : forall n, n < 2 ^ 64 -> n <> 251 -> lenenc n (lei_write (lei_from n)).
Proof. exact lei_write_spec. Qed.
Print Assumptions C03_write.

Theorem C03_shortest : forall n e1 e2, lenenc n e1 -> lenenc_any n e2 -> (length e1 <= length e2)%nat.
Proof. exact lei_shortest. Qed.
Print Assumptions C03_shortest.

Theorem C03_round_trip : forall n rest, n < 2 ^ 64 -> n <> 251 ->
  read_len_enc_int (lei_write (lei_from n) ++ rest) = (Ok (lei_from n), rest)
  /\ lei_to_u64 (lei_from n) = Some n.
Proof. exact lei_round_trip. Qed.
Print Assumptions C03_round_trip.

(** The reader accepts every encoding a MySQL server may send, with its value. *)
Theorem C03_read : forall n enc rest, lenenc_any n enc ->
  exists l, read_len_enc_int (enc ++ rest) = (Ok l, rest) /\ lei_to_u64 l = Some n.
Proof. exact read_lei_any. Qed.
Print Assumptions C03_read.

(** ... and nothing else as a number. *)
Theorem C03_read_only : forall bs l rest n,
  read_len_enc_int bs = (Ok l, rest) -> lei_to_u64 l = Some n ->
  exists enc, bs = enc ++ rest /\ lenenc_any n enc.
Proof. exact read_lei_inv. Qed.
Print Assumptions C03_read_only.

(** Finding: 251 is written as the SQL NULL marker. *)
Theorem C03_251_refuted : exists n, n < 2 ^ 64 /\ forall rest,
  read_len_enc_int (lei_write (lei_from n) ++ rest) = (Ok LeiNull, rest) /\ lei_to_u64 LeiNull = None.
Proof. exact (ex_intro _ 251 (conj eq_refl (fun rest => conj eq_refl eq_refl))). Qed.
Print Assumptions C03_251_refuted.

Example C03_ex1 : lei_write (lei_from 300) = [xfc; x2c; x01].
Proof. reflexivity. Qed.
Example C03_ex2 : lenenc_any 5 [xfc; x05; x00] /\ lenenc 5 [x05].
Proof. split; constructor; repeat split. Qed.
Example C03_ex3 : lei_write (lei_from 70000) = [xfd; x70; x11; x01].
Proof. reflexivity. Qed.
