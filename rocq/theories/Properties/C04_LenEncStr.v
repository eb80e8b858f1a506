(** C04: length encoded strings.  Vocabulary: Spec/LenEncSpec.v. *)
From Verif Require Import Model.Base Model.BytesParser Model.LenEnc Spec.Nums Spec.LenEncSpec Proofs.LenEncProofs.
Open Scope N_scope.

Theorem C04_write : forall s, blen s < 2 ^ 64 -> blen s <> 251 -> lenenc_str s (les_write (LesBytes s)).
Proof. exact les_write_spec. Qed.
Print Assumptions C04_write.

Theorem C04_round_trip : forall s rest, blen s < 2 ^ 64 -> blen s <> 251 ->
  read_len_enc_str (les_write (LesBytes s) ++ rest) = (Ok (LesBytes s), rest).
Proof. exact les_round_trip. Qed.
Print Assumptions C04_round_trip.

Theorem C04_read : forall s enc rest, lenenc_str s enc ->
  read_len_enc_str (enc ++ rest) = (Ok (LesBytes s), rest).
Proof. exact read_les_lenenc. Qed.
Print Assumptions C04_read.

Theorem C04_read_only : forall bs s rest, read_len_enc_str bs = (Ok (LesBytes s), rest) ->
  exists enc, bs = enc ++ s ++ rest /\ lenenc_any (blen s) enc.
Proof. exact read_les_bytes_inv. Qed.
Print Assumptions C04_read_only.

Theorem C04_null : forall rest,
  read_len_enc_str (les_write LesNull ++ rest) = (Ok LesNull, rest) /\
  read_len_enc_str (les_write LesErr ++ rest) = (Ok LesErr, rest).
Proof. exact les_null_round_trip. Qed.
Print Assumptions C04_null.

(** Finding: every string of length exactly 251 is read back as NULL, and its
    bytes are left in the stream. *)
Theorem C04_251_refuted : forall s rest, blen s = 251 ->
  read_len_enc_str (les_write (LesBytes s) ++ rest) = (Ok LesNull, s ++ rest).
Proof. exact les_251. Qed.
Print Assumptions C04_251_refuted.

Example C04_ex1 : read_len_enc_str (les_write (LesBytes [x68; x69]) ++ [x00]) = (Ok (LesBytes [x68; x69]), [x00]).
Proof. reflexivity. Qed.
Example C04_ex2 : blen (repeat x41 251) = 251.
Proof. reflexivity. Qed.
