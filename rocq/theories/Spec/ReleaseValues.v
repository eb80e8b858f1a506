(** * Independent specification: the values and row images a release build takes

    As Spec/AcceptsRowEvents.v, for arithmetic that wraps around. *)
From Coq Require Import ZArith.
From Verif Require Import Model.Base Model.LenEnc Model.Utf8 Model.Time Model.Decimal Model.Col Model.Event Model.EventBody
  Model.Rows Spec.Nums Spec.LenEncSpec Spec.Wire Spec.BitmapSpec Spec.DecimalSpec Spec.Accepts Spec.AcceptsEvents Spec.AcceptsRowEvents
  Spec.ReleaseAccepts.
Open Scope N_scope.

(** DATETIME: the sign is dropped, of the smallest number too *)
Definition release_datetime_layout (dec : N) (t : my_datetime) (w : bytes) : Prop :=
  exists p, packed_layout 5 dec p w /\
    Z.abs_N p = (((dt_year t * 13 + dt_month t) * 2 ^ 5 + dt_day t) * 2 ^ 17
                 + dt_hour t * 2 ^ 12 + dt_minute t * 2 ^ 6 + dt_second t) * 2 ^ 24 + dt_micro t /\
    dt_month t < 13 /\ dt_day t < 2 ^ 5 /\ dt_hour t < 2 ^ 5 /\ dt_minute t < 2 ^ 6 /\ dt_second t < 2 ^ 6 /\ dt_micro t < 2 ^ 24.
(** DECIMAL: the last group of the fraction is filled up to nine digits and cut to 32 bits *)
Definition release_scaled (frac : N) (gs : list N) : list N :=
  if frac mod 9 =? 0 then gs else removelast gs ++ [(last gs 0 * 10 ^ (9 - frac mod 9)) mod 2 ^ 32].
Definition release_decimal_layout (intg frac : N) (d : my_decimal) (w rest : bytes) : Prop :=
  (w ++ rest = [] /\ d = mk_dec intg frac false []) \/
  exists b more gs, w ++ rest = b :: more /\ d = mk_dec intg frac (b2n b <? 128) (release_scaled frac gs) /\
    let widths := int_widths intg ++ frac_widths frac in
    Forall2 (fun k g => g < 256 ^ N.of_nat k) widths gs /\
    let body := wbes widths gs in
    let signed := if b2n b <? 128 then map complement body else body in
    w = if intg mod 9 =? 0 then signed else flip_first signed.
(** a bit field of 255 bytes and some bits is empty; a decimal with more digits behind the point than
    in all has 256 more; texts may be longer than declared; everything else as with checks *)
Definition release_value_layout (m : column_meta) (v : binlog_value) (w rest : bytes) : Prop :=
  match m with
  | MDateTime dec => exists t, v = LDateTime t /\ release_datetime_layout dec t w
  | MBit bits more => exists s, v = LBit s /\ w = s /\ N.of_nat (length s) = (more + (if bits =? 0 then 0 else 1)) mod 2 ^ 8
  | MVarString max => exists s, v = LVarString s /\ behind_length (is_le (if max <? 256 then 1 else 2)) s w
  | MNewDecimal prec frac => exists d, v = LNewDecimal d /\
      release_decimal_layout (if frac <=? prec then prec - frac else 2 ^ 8 + prec - frac) frac d w rest
  | _ => value_layout m v w rest
  end.

(** ** Row images *)
Inductive release_image_columns (present null : nat -> bool) (metas : list column_meta)
  : nat -> nat -> nat -> list binlog_value -> bytes -> bytes -> Prop :=
| ric_end i j rest : release_image_columns present null metas i j 0 [] [] rest
| ric_absent i j n vs w rest : present i = false -> release_image_columns present null metas (S i) j n vs w rest ->
    release_image_columns present null metas i j (S n) (LNull :: vs) w rest
| ric_null i j n vs w rest : present i = true -> null j = true -> release_image_columns present null metas (S i) (S j) n vs w rest ->
    release_image_columns present null metas i j (S n) (LNull :: vs) w rest
| ric_value i j n m v vs w1 w rest : present i = true -> null j = false -> nth_error metas i = Some m -> release_value_layout m v w1 (w ++ rest) ->
    release_image_columns present null metas (S i) (S j) n vs w rest ->
    release_image_columns present null metas i j (S n) (v :: vs) (w1 ++ w) rest.
(** the bitmap of the present columns has a bit for each of them *)
Definition release_image_layout (n : N) (present : bytes) (metas : list column_meta) (vs : list binlog_value) (w rest : bytes) : Prop :=
  n <= 8 * N.of_nat (length present) /\
  exists nulls columns, w = nulls ++ columns /\ length nulls = ((present_count n present + 7) / 8)%nat /\ 40 * n < 2 ^ 63 /\
    release_image_columns (bit present) (bit nulls) metas 0 0 (N.to_nat n) vs columns rest.
(** the sum of the number of columns and seven is cut to 32 bits: so many columns have no bitmap, and hence no rows *)
Definition release_rows_event_layout (extra_len : N) (metas : list column_meta) (r : rows_v2) (w : bytes) : Prop :=
  (gives 64 extra_len 2 (N.of_nat (length (r_extra_data r))) /\
   N.of_nat (length (r_present_bitmap r)) = (r_n_cols r + 7) mod 2 ^ 32 / 8) /\
  fields [exactly (r_extra_data r); column_count (r_n_cols r); exactly (r_present_bitmap r);
          rows_layout (release_image_layout (r_n_cols r) (r_present_bitmap r) metas) (r_rows r)] w.
Definition release_update_layout (n : N) (before after : bytes) (metas : list column_meta) (r : list binlog_value * list binlog_value) (w rest : bytes) : Prop :=
  exists w1 w2, w = w1 ++ w2 /\ release_image_layout n before metas (fst r) w1 (w2 ++ rest) /\ release_image_layout n after metas (snd r) w2 rest.
Definition release_update_event_layout (extra_len : N) (metas : list column_meta) (r : update_rows_v2) (w : bytes) : Prop :=
  (gives 64 extra_len 2 (N.of_nat (length (u_extra_data r))) /\
   N.of_nat (length (u_before_present_bitmap r)) = (u_n_cols r + 7) mod 2 ^ 32 / 8 /\
   N.of_nat (length (u_after_present_bitmap r)) = (u_n_cols r + 7) mod 2 ^ 32 / 8) /\
  fields [exactly (u_extra_data r); column_count (u_n_cols r); exactly (u_before_present_bitmap r); exactly (u_after_present_bitmap r);
          rows_layout (release_update_layout (u_n_cols r) (u_before_present_bitmap r) (u_after_present_bitmap r) metas) (u_rows r)] w.
