(** C05: bitmaps.  Vocabulary: Spec/BitmapSpec.v. *)
From Verif Require Import Model.Base Model.Bitmap Spec.BitmapSpec Proofs.BitmapProofs.

(** build then iterate: the same booleans, then only (fewer than a byte of) false *)
Theorem C05_round_trip : forall bools off, exists k,
  bm_to_iter (bm_from_iter bools off) off = Ok (bools ++ repeat false k)
  /\ (k < 8 \/ bools = [] /\ k <= 8)%nat.
Proof. exact bm_round_trip. Qed.
Print Assumptions C05_round_trip.

(** which bits the built bitmap has, and how long it is *)
Theorem C05_from_iter : forall bools off,
  length (bm_from_iter bools off) = Nat.max (off / 8 + 1) ((off + length bools + 7) / 8) /\
  forall j, bit (bm_from_iter bools off) j = if (j <? off)%nat then false else nth (j - off) bools false.
Proof. exact bm_from_iter_spec. Qed.
Print Assumptions C05_from_iter.

(** random access and iteration read the same bits *)
Theorem C05_index : forall bs i, (i < 8 * length bs)%nat -> bm_index bs i = Ok (bit bs i).
Proof. exact bm_index_spec. Qed.
Print Assumptions C05_index.
Theorem C05_iter : forall bs off, (off <= 8 * length bs)%nat -> bm_to_iter bs off = Ok (bits_from bs off).
Proof. exact bm_to_iter_spec. Qed.
Print Assumptions C05_iter.

(** marking sets that bit and no other *)
Theorem C05_mark : forall bs i v, (i < 8 * length bs)%nat ->
  exists bs', bm_mark bs i v = Ok bs' /\ length bs' = length bs /\ bit bs' i = v /\
    (forall j, j <> i -> bit bs' j = bit bs j).
Proof. exact bm_mark_spec. Qed.
Print Assumptions C05_mark.

(** out of range positions panic *)
Theorem C05_index_oob : forall bs i, (8 * length bs <= i)%nat -> bm_index bs i = Panic PIndex.
Proof. exact bm_index_oob. Qed.
Print Assumptions C05_index_oob.
Theorem C05_iter_oob : forall bs off, (8 * length bs < off)%nat -> bm_to_iter bs off = Panic PIndex.
Proof. exact bm_to_iter_oob. Qed.
Print Assumptions C05_iter_oob.
Theorem C05_mark_oob : forall bs i v, (8 * length bs <= i)%nat -> bm_mark bs i v = Panic PIndex.
Proof. exact bm_mark_oob. Qed.
Print Assumptions C05_mark_oob.

Example C05_ex1 : bm_from_iter [true; false; true] 7 = [x80; x02].
Proof. reflexivity. Qed.
Example C05_ex2 : bm_to_iter [x80; x02] 7 = Ok [true; false; true; false; false; false; false; false; false].
Proof. reflexivity. Qed.
Example C05_ex3 : bm_mark [x80; x02] 9 false = Ok [x80; x00].
Proof. reflexivity. Qed.
