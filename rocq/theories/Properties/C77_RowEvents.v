(** C77: table maps, values and row images are taken exactly for what the layout of the binlog says.
    [takes_exactly] is in Spec/Accepts.v, [takes_before] and the layouts in Spec/AcceptsRowEvents.v *)
From Coq Require Import List NArith ZArith Lia Bool.
From Verif Require Import Model.Base Model.BytesParser Model.Time Model.Decimal Model.Col Model.Row Model.Event Model.EventBody Model.Rows
  Spec.Nums Spec.Accepts Spec.AcceptsEvents Spec.AcceptsRowEvents Proofs.AcceptsValues Proofs.AcceptsImages.
Import ListNotations.
Open Scope N_scope.

(** the description of a column, of all columns, and the whole table map *)
Theorem C77_table_map : (forall ct, takes_exactly (read_column_meta ct) (meta_layout ct)) /\
  (forall cnt defs, takes_exactly (read_column_metas cnt defs) (metas_layout cnt defs)) /\
  (forall d t, table_map_of d = Ok t <-> whole_table_map_layout t (tmd_payload d)).
Proof. split; [exact accepts_meta|]. split; [exact accepts_metas|exact accepts_whole_table_map]. Qed.
Print Assumptions C77_table_map.
(** times, dates and decimals *)
Theorem C77_times : forall dec, takes_exactly (time_from_binlog dec) (time_layout dec) /\ takes_exactly (datetime_from_binlog dec) (datetime_layout dec).
Proof. intros. split; [apply accepts_time|apply accepts_datetime]. Qed.
Print Assumptions C77_times.
Theorem C77_decimal : forall intg frac, takes_before (read_decimal intg frac) (decimal_layout intg frac).
Proof. exact accepts_decimal. Qed.
Print Assumptions C77_decimal.
(** the value of a column of any type *)
Theorem C77_value : forall m, takes_before (read_binlog_value m) (value_layout m).
Proof. exact accepts_value. Qed.
Print Assumptions C77_value.
(** the image of a row: the decoder is called with the number of the columns that are present *)
Theorem C77_image : forall n present metas, n <= 8 * N.of_nat (length present) ->
  count_present n present = Ok (present_count n present) /\
  takes_before (read_row_image n present (present_count n present) metas) (image_layout n present metas).
Proof. intros n present metas H. split; [exact (count_is _ _ H)|exact (accepts_image _ _ _ H)]. Qed.
Print Assumptions C77_image.
(** all rows of an insertion, a deletion or an update *)
Theorem C77_rows : forall d metas,
  (forall r, rows_of d metas = Ok r <-> rows_event_layout (rd2_extra_data_len d) metas r (rd2_payload d)) /\
  (forall r, update_rows_of d metas = Ok r <-> update_event_layout (rd2_extra_data_len d) metas r (rd2_payload d)).
Proof. intros. split; [apply accepts_rows|apply accepts_update_rows]. Qed.
Print Assumptions C77_rows.

(** ** Cases *)
(** an ENUM in two bytes, described and read *)
Example C77_ex_meta : read_column_meta TString [xf7; x02; x09] = (Ok (MEnum 2), [x09]) /\ meta_layout TString (MEnum 2) [xf7; x02].
Proof. split; [reflexivity|]. apply (ml_enum 247); [reflexivity|]. apply (one_more _ _ [xf7] [x02]); [split; reflexivity|]. apply (one_more _ _ [x02] []); [split; reflexivity|constructor]. Qed.
(** -1234.5 of DECIMAL(5,1): the sign is told by the first byte *)
Example C77_ex_decimal : read_decimal 4 1 [x7b; x2d; xfa; x09] = (Ok (mk_dec 4 1 true [1234; 500000000]), [x09]) /\
  decimal_layout 4 1 (mk_dec 4 1 true [1234; 500000000]) [x7b; x2d; xfa] [x09].
Proof.
  assert (E : read_decimal 4 1 [x7b; x2d; xfa; x09] = (Ok (mk_dec 4 1 true [1234; 500000000]), [x09])) by reflexivity.
  split; [exact E|]. apply C77_decimal in E. destruct E as (w & W & L). change [x7b; x2d; xfa; x09] with ([x7b; x2d; xfa] ++ [x09]) in W. apply app_inv_tail in W. subst w. exact L.
Qed.
(** two rows of an INT and a VARCHAR(20), the INT of the second is NULL *)
Definition C77_event : rows_data_v2 := mk_rd2 5 0 2 [x02; xff;  xfc; x07; x00; x00; x00; x01; x61;  xfd; x02; x62; x63].
Definition C77_rows_read : rows_v2 := mk_rows [] 2 [xff] [[LLong 7; LVarString [x61]]; [LNull; LVarString [x62; x63]]].
Example C77_ex_rows : rows_of C77_event [MLong; MVarString 20] = Ok C77_rows_read /\
  rows_event_layout 2 [MLong; MVarString 20] C77_rows_read (rd2_payload C77_event).
Proof. assert (E : rows_of C77_event [MLong; MVarString 20] = Ok C77_rows_read) by reflexivity. split; [exact E|]. apply (proj1 (C77_rows C77_event _)) in E. exact E. Qed.
(** cut short, nothing is read, and there is no layout of it *)
Example C77_ex_cut : forall r, ~ rows_event_layout 2 [MLong; MVarString 20] r [x02; xff; xfc; x07; x00; x00].
Proof.
  intros r H. apply (proj2 (proj1 (C77_rows (mk_rd2 5 0 2 [x02; xff; xfc; x07; x00; x00]) _) r)) in H.
  revert H. cbv [rows_of]. match goal with |- fst ?x = _ -> _ => let y := eval vm_compute in x in change x with y end. discriminate.
Qed.
(** an update of an INT from 1 to 2 *)
Example C77_ex_update : exists r, update_rows_of (mk_rd2 5 0 2 [x01; x01; x01;  x00; x01; x00; x00; x00;  x00; x02; x00; x00; x00]) [MLong] = Ok r /\
  u_rows r = [([LLong 1], [LLong 2])].
Proof. eexists. split; reflexivity. Qed.
(** a row without any column present takes no bytes: nothing with bytes left is a sequence of them *)
Example C77_ex_empty : forall r, ~ rows_event_layout 2 [MLong] r [x01; x00; x09].
Proof.
  intros r H. apply (proj2 (proj1 (C77_rows (mk_rd2 5 0 2 [x01; x00; x09]) _) r)) in H.
  revert H. cbv [rows_of]. match goal with |- fst ?x = _ -> _ => let y := eval vm_compute in x in change x with y end. discriminate.
Qed.
