(** C79: the table maps, values, row images and row events a release build takes.  The layouts are in Spec/ReleaseValues.v *)
From Coq Require Import List NArith ZArith Lia Bool.
From Verif Require Import Model.Base Model.BytesParser Model.Time Model.Decimal Model.Col Model.Row Model.Event Model.EventBody Model.Rows Model.Release
  Spec.Nums Spec.LenEncSpec Spec.Wire Spec.BitmapSpec Spec.Accepts Spec.AcceptsEvents Spec.AcceptsRowEvents Spec.ReleaseSpec Spec.ReleaseAccepts Spec.ReleaseValues
  Proofs.BaseLemmas Proofs.ReleaseProofs Proofs.AcceptsProofs Proofs.AcceptsEvents Proofs.AcceptsValues Proofs.AcceptsImages Proofs.ReleaseValues.
Import ListNotations.
Open Scope N_scope.

(** a table map: the same as with checks, a table with so many columns that their number overflows is refused by both *)
Theorem C79_table_map : forall d t, table_map_of_rel d = Ok t <-> whole_table_map_layout t (tmd_payload d).
Proof. exact accepts_table_map_rel. Qed.
Print Assumptions C79_table_map.
(** the value of a column of any type *)
Theorem C79_values : forall m, takes_before (read_binlog_value_rel m) (release_value_layout m).
Proof. exact accepts_value_rel. Qed.
Print Assumptions C79_values.
(** the image of a row, with one bit for each column in the bitmap, or none in an empty bitmap *)
Theorem C79_images : forall n present metas, n <= 8 * N.of_nat (length present) \/ (present = [] /\ n <> 0) ->
  exists c, count_present n present = Ok c /\ takes_before (read_row_image_rel n present c metas) (release_image_layout n present metas).
Proof. exact any_image_rel. Qed.
Print Assumptions C79_images.
(** all rows of an insertion, a deletion or an update *)
Theorem C79_row_events : forall d metas, rd2_extra_data_len d < 2 ^ 64 ->
  (forall r, rows_of_rel d metas = Ok r <-> release_rows_event_layout (rd2_extra_data_len d) metas r (rd2_payload d)) /\
  (forall r, update_rows_of_rel d metas = Ok r <-> release_update_event_layout (rd2_extra_data_len d) metas r (rd2_payload d)).
Proof. intros d metas H. split; intros r; [apply accepts_rows_rel|apply accepts_update_rows_rel]; exact H. Qed.
Print Assumptions C79_row_events.

(** ** Where this differs from a build with checks *)
(** a value means the same in both unless it is a DATETIME of zero bytes only, a bit field of 255 bytes and some bits,
    a text longer than declared (or one of the decimals of Spec/ReleaseValues.v) *)
Definition in_range (m : column_meta) (v : binlog_value) (w : bytes) : Prop :=
  match m, v with
  | MDateTime _, _ => be_val w <> 0
  | MBit bits more, _ => more + (if bits =? 0 then 0 else 1) < 256
  | MVarString max, LVarString s => N.of_nat (length s) <= max
  | _, _ => True
  end.
Theorem C79_same_values : forall m v w rest, (forall prec frac, m <> MNewDecimal prec frac) ->
  (value_layout m v w rest <-> release_value_layout m v w rest /\ in_range m v w).
Proof.
  intros m v w rest ND. destruct m; cbn [release_value_layout in_range]; try tauto.
  - split.
    + intros H. inversion H as [| | | | | | | | | | | |? t ? ? (p & P & Q & T)| | | | | | | | | | | |]; subst. split; [exists t; split; [reflexivity|exists p; auto]|].
      intros Z. apply Q, (packed_zero _ _ _ P), Z.
    + intros [(t & -> & p & P & T) Z]. constructor. exists p. split; [exact P|]. split; [|exact T]. intros Q. apply Z, (packed_zero _ _ _ P), Q.
  - split.
    + intros H. inversion H; subst. split; [|lia]. eexists. split; [reflexivity|]. split; [reflexivity|]. rewrite N.mod_small; [assumption|]. change (2 ^ 8) with 256. lia.
    + intros [(s & -> & -> & L) B]. rewrite N.mod_small in L by exact B. constructor; [exact L|lia].
  - destruct (ND prec frac eq_refl).
  - split.
    + intros H. inversion H; subst. split; [eauto|assumption].
    + intros [(s & -> & H) L]. constructor; assumption.
Qed.
Print Assumptions C79_same_values.
(** a decimal that a build with checks takes means the same without; the converse holds if all groups behind the point are full *)
Theorem C79_same_decimals : forall prec frac v w rest,
  (value_layout (MNewDecimal prec frac) v w rest -> release_value_layout (MNewDecimal prec frac) v w rest) /\
  (frac <= prec -> frac mod 9 = 0 -> release_value_layout (MNewDecimal prec frac) v w rest -> value_layout (MNewDecimal prec frac) v w rest).
Proof.
  intros prec frac v w rest. split.
  - intros H. inversion H as [| | | | | | | | | | | | | | | |? ? d ? ? F D| | | | | | | |]; subst. exists d. split; [reflexivity|].
    destruct (N.leb_spec frac prec); [|lia]. destruct D as [D|(b & more & gs & E & -> & W & S & B)]; [left; exact D|]. right.
    exists b, more, gs. split; [exact E|]. split; [|split; [exact W|exact B]]. f_equal. unfold scaled, release_scaled in *. destruct (frac mod 9 =? 0); [reflexivity|].
    apply Forall_app in S. destruct S as [_ S]. rewrite (N.mod_small (last gs 0 * _)) by exact (Forall_inv S). reflexivity.
  - intros F M (d & -> & D). constructor; [exact F|]. destruct (N.leb_spec frac prec); [|lia].
    destruct D as [D|(b & more & gs & E & -> & W & B)]; [left; exact D|]. right. exists b, more, gs. unfold scaled, release_scaled in *. rewrite M in *. cbn [N.eqb] in *.
    split; [exact E|]. split; [reflexivity|]. split; [exact W|]. split; [|exact B]. apply (narrow_groups _ _ (widths_narrow (prec - frac) frac) W).
Qed.
Print Assumptions C79_same_decimals.

(** ** Cases *)
(** zero bytes are a DATETIME of the year 10082 *)
Example C79_ex_datetime :
  release_value_layout (MDateTime 0) (LDateTime (mk_dt 10082 6 0 0 0 0 0)) [x00; x00; x00; x00; x00] [x09] /\
  fst (read_binlog_value (MDateTime 0) [x00; x00; x00; x00; x00; x09]) = Panic PArith.
Proof.
  split; [|vm_compute; reflexivity]. destruct (proj1 (C79_values (MDateTime 0) ([x00; x00; x00; x00; x00] ++ [x09]) (LDateTime (mk_dt 10082 6 0 0 0 0 0)) [x09])) as (w & W & H); [vm_compute; reflexivity|].
  apply app_inv_tail in W. rewrite W. exact H.
Qed.
(** a bit field of 255 bytes and one bit is empty, and so takes no bytes *)
Example C79_ex_bits : release_value_layout (MBit 1 255) (LBit []) [] [x09] /\ ~ value_layout (MBit 1 255) (LBit []) [] [x09].
Proof. split; [exists []; repeat split|]. intros H. apply C79_same_values in H; [|discriminate]. destruct H as [_ H]. revert H. vm_compute. discriminate. Qed.
(** a digit behind the point stored as 127 is 127 * 10^8 mod 2^32 *)
Example C79_ex_decimal : read_binlog_value_rel (MNewDecimal 1 1) [xff; x09] = (Ok (LNewDecimal (mk_dec 0 1 false [4025163520])), [x09]) /\
  release_value_layout (MNewDecimal 1 1) (LNewDecimal (mk_dec 0 1 false [4025163520])) [xff] [x09] /\
  fst (read_binlog_value (MNewDecimal 1 1) [xff; x09]) = Panic PArith.
Proof.
  assert (E : read_binlog_value_rel (MNewDecimal 1 1) ([xff] ++ [x09]) = (Ok (LNewDecimal (mk_dec 0 1 false [4025163520])), [x09])) by reflexivity.
  split; [exact E|]. split; [|reflexivity]. apply C79_values in E. destruct E as (w & W & H). apply app_inv_tail in W. rewrite W. exact H.
Qed.
(** two rows of an INT and a VARCHAR(1), the second with a longer text *)
Definition long_text : rows_data_v2 := mk_rd2 5 0 2 [x02; xff;  xfc; x07; x00; x00; x00; x01; x61;  xfd; x02; x62; x63].
Definition long_text_rows : rows_v2 := mk_rows [] 2 [xff] [[LLong 7; LVarString [x61]]; [LNull; LVarString [x62; x63]]].
Example C79_ex_rows : rows_of_rel long_text [MLong; MVarString 1] = Ok long_text_rows /\
  release_rows_event_layout 2 [MLong; MVarString 1] long_text_rows (rd2_payload long_text) /\
  rows_of long_text [MLong; MVarString 1] = Panic PAssert.
Proof.
  assert (E : rows_of_rel long_text [MLong; MVarString 1] = Ok long_text_rows) by reflexivity. split; [exact E|]. split; [|reflexivity].
  apply (proj1 (C79_row_events long_text _ eq_refl)) in E. exact E.
Qed.
(** an update to the empty text *)
Example C79_ex_update : exists r, update_rows_of_rel (mk_rd2 5 0 2 [x01; x01; x01;  x00; x02; x61; x62;  x00; x00]) [MVarString 1] = Ok r /\
  u_rows r = [([LVarString [x61; x62]], [LVarString []])] /\
  release_update_event_layout 2 [MVarString 1] r [x01; x01; x01;  x00; x02; x61; x62;  x00; x00].
Proof.
  eexists. split; [reflexivity|]. split; [reflexivity|]. apply (proj2 (C79_row_events (mk_rd2 5 0 2 _) [MVarString 1] eq_refl)). reflexivity.
Qed.
(** 2^32 - 1 columns and no rows; a build with checks does not take it *)
Definition many_columns : bytes := [xfe; xff; xff; xff; xff; x00; x00; x00; x00].
Example C79_ex_columns : rows_of_rel (mk_rd2 5 0 2 many_columns) [] = Ok (mk_rows [] (2 ^ 32 - 1) [] []) /\
  forall r, ~ rows_event_layout 2 [] r many_columns.
Proof.
  assert (C : column_count (2 ^ 32 - 1) many_columns).
  { exists (2 ^ 32 - 1). split; [|reflexivity]. apply (any9 (2 ^ 32 - 1) [xff; xff; xff; xff; x00; x00; x00; x00]). split; reflexivity. }
  split.
  - apply (proj1 (C79_row_events (mk_rd2 5 0 2 many_columns) [] eq_refl)). split; [split; [split; reflexivity|reflexivity]|].
    apply (one_more _ _ [] many_columns); [reflexivity|]. change many_columns with (many_columns ++ [] ++ []). constructor; [exact C|]. constructor; [reflexivity|]. apply fields_one. constructor.
  - intros r [[L [B _]] H]. apply fields_cons_inv in H. destruct H as (w0 & w' & E & W & H). unfold exactly in W. subst w0.
    assert (X : r_extra_data r = []) by (destruct (r_extra_data r); [reflexivity|cbn [length] in L; lia]). rewrite X in E. cbn [app] in E. subst w'.
    apply fields_cons_inv in H. destruct H as (w1 & w2 & E & K & _). destruct K as (m & M & K).
    unfold many_columns in E. inversion M as [? b Hb Q|? s Ls|? s Ls|? s Ls]; subst; cbn [app] in E; try discriminate E.
    + injection E as <- _. vm_compute in Hb. discriminate Hb.
    + injection E as E. rewrite K in B. destruct Ls as [Ls <-]. do 8 (destruct s as [|? s]; [discriminate Ls|]). destruct s; [|discriminate Ls].
      injection E as <- <- <- <- <- <- <- <- _. vm_compute in B. discriminate B.
Qed.
