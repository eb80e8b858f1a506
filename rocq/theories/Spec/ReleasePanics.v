(** * Independent specification: what stops a release build in a stored value or a row event

    As the second half of Spec/Panics.v, for arithmetic that wraps around; which values are read is said by
    [release_value_layout]. *)
From Verif Require Import Model.Base Model.Col Spec.Nums Spec.BitmapSpec Spec.LenEncSpec Spec.Wire Spec.Catalogue Spec.Panics
  Spec.ReleaseAccepts Spec.ReleaseValues.
Open Scope N_scope.

(** only the type of the column matters: two types are not implemented, and the length of a blob has one to four bytes *)
Inductive release_value_panics : column_meta -> panic -> Prop :=
| rvp_decimal : release_value_panics MDecimal PUnimplemented
| rvp_geometry n : release_value_panics (MGeometry n) PUnimplemented
| rvp_blob n : ~ 1 <= n <= 4 -> release_value_panics (MBlob n) PUnreachable.

(** ** Row images *)
(** columns [i] to [j - 1] can be read from [bs], leaving [rest] *)
Inductive release_columns_read (value : nat -> bool) (metas : list column_meta) : nat -> bytes -> nat -> bytes -> Prop :=
| rcr_none i bs : release_columns_read value metas i bs i bs
| rcr_left_out i bs j rest : value i = false -> release_columns_read value metas (S i) bs j rest -> release_columns_read value metas i bs j rest
| rcr_value i m v w mid j rest : value i = true -> nth_error metas i = Some m -> release_value_layout m v w mid ->
    release_columns_read value metas (S i) mid j rest -> release_columns_read value metas i (w ++ mid) j rest.
Definition release_image_read (n : N) (present : bytes) (metas : list column_meta) (bs rest : bytes) : Prop :=
  exists nulls values, bs = nulls ++ values /\ length nulls = ((rank present (N.to_nat n) + 7) / 8)%nat /\
    release_columns_read (has_value present nulls) metas 0 values (N.to_nat n) rest.
Definition release_image_panics (n : N) (present : bytes) (metas : list column_meta) (bs : bytes) (w : panic) : Prop :=
  exists nulls values i rest, bs = nulls ++ values /\ length nulls = ((rank present (N.to_nat n) + 7) / 8)%nat /\
    release_columns_read (has_value present nulls) metas 0 values i rest /\ (i < N.to_nat n)%nat /\ has_value present nulls i = true /\
    match nth_error metas i with
    | Some m => release_value_panics m w
    | None => w = PIndex
    end.
(** an image before and one after *)
Definition release_pair_read (n : N) (before after : bytes) (metas : list column_meta) (bs rest : bytes) : Prop :=
  exists mid, release_image_read n before metas bs mid /\ release_image_read n after metas mid rest.
Definition release_pair_panics (n : N) (before after : bytes) (metas : list column_meta) (bs : bytes) (w : panic) : Prop :=
  release_image_panics n before metas bs w \/ exists mid, release_image_read n before metas bs mid /\ release_image_panics n after metas mid w.

(** ** Row events *)
(** the extra data (of [extra_len - 2] bytes, modulo 2^64), the number of columns and what follows *)
Definition release_announces (extra_len : N) (payload : bytes) (n : N) (rest : bytes) : Prop :=
  exists extra w v, gives 64 extra_len 2 (N.of_nat (length extra)) /\ payload = extra ++ w ++ rest /\
    dlenenc w = Some (v, []) /\ n = v mod 2 ^ 32.
(** so many columns that seven more wrap around: they have no bitmap, and the first bit looked at is not there *)
Definition too_many (n : N) : Prop := 2 ^ 32 - 7 <= n.
Definition release_rows_panic (extra_len : N) (metas : list column_meta) (payload : bytes) (w : panic) : Prop :=
  exists n body, release_announces extra_len payload n body /\
    ((too_many n /\ body <> [] /\ w = PIndex) \/
     (~ too_many n /\ exists present rows, body = present ++ rows /\ bitmap_of n present /\
        images_panic (release_image_read n present metas) (release_image_panics n present metas) rows w)).
Definition release_update_rows_panic (extra_len : N) (metas : list column_meta) (payload : bytes) (w : panic) : Prop :=
  exists n body, release_announces extra_len payload n body /\
    ((too_many n /\ body <> [] /\ w = PIndex) \/
     (~ too_many n /\ exists before after rows, body = before ++ after ++ rows /\ bitmap_of n before /\ bitmap_of n after /\
        images_panic (release_pair_read n before after metas) (release_pair_panics n before after metas) rows w)).
(** no column is there, but something follows *)
Definition release_rows_endless (extra_len : N) (payload : bytes) : Prop :=
  exists n present rows, release_announces extra_len payload n (present ++ rows) /\ ~ too_many n /\ none_present n present /\ rows <> [].
Definition release_update_rows_endless (extra_len : N) (payload : bytes) : Prop :=
  exists n before after rows, release_announces extra_len payload n (before ++ after ++ rows) /\ ~ too_many n /\
    none_present n before /\ none_present n after /\ rows <> [].
