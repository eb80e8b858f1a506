(** C72 for stored values and row events: exactly what stops a release build there *)
From Coq Require Import List NArith Arith Bool Lia.
From Verif Require Import Model.Base Model.BytesParser Model.Col Model.Event Model.EventBody Model.Rows Model.Release
  Spec.Nums Spec.BitmapSpec Spec.LenEncSpec Spec.Decoders Spec.Catalogue Spec.Panics Spec.ReleaseAccepts Spec.ReleaseValues Spec.ReleasePanics
  Proofs.PanicProofs Proofs.ReleasePanics.
Import ListNotations.
Open Scope N_scope.

(** a stored value: the type of the column decides, whatever the bytes are *)
Theorem C72_value_panics : forall m bs, panics_exactly (fst (read_binlog_value_rel m bs)) (release_value_panics m).
Proof. exact value_rel_exact. Qed.
Print Assumptions C72_value_panics.
(** inserted and deleted rows *)
Theorem C72_rows_panic : forall d metas, rd2_extra_data_len d < 2 ^ 64 ->
  (forall w, rows_of_rel d metas = Panic w <-> release_rows_panic (rd2_extra_data_len d) metas (rd2_payload d) w) /\
  (rows_of_rel d metas = Loop <-> release_rows_endless (rd2_extra_data_len d) (rd2_payload d)).
Proof. intros d metas B. exact (rows_rel_exact _ metas _ B). Qed.
Print Assumptions C72_rows_panic.
(** updated rows *)
Theorem C72_update_rows_panic : forall d metas, rd2_extra_data_len d < 2 ^ 64 ->
  (forall w, update_rows_of_rel d metas = Panic w <-> release_update_rows_panic (rd2_extra_data_len d) metas (rd2_payload d) w) /\
  (update_rows_of_rel d metas = Loop <-> release_update_rows_endless (rd2_extra_data_len d) (rd2_payload d)).
Proof. intros d metas B. exact (update_rows_rel_exact _ metas _ B). Qed.
Print Assumptions C72_update_rows_panic.
(** with as many columns as the table has, of types that can be read, and a bitmap, nothing does *)
Theorem C72_rows_safe : forall d metas, rd2_extra_data_len d < 2 ^ 64 -> (forall m w, In m metas -> ~ release_value_panics m w) ->
  (forall n body, release_announces (rd2_extra_data_len d) (rd2_payload d) n body -> n <= N.of_nat (length metas) /\ ~ too_many n) ->
  (forall w, rows_of_rel d metas <> Panic w) /\ (forall w, update_rows_of_rel d metas <> Panic w).
Proof.
  intros d metas B M H.
  assert (Q : forall n present bs w, n <= N.of_nat (length metas) -> ~ release_image_panics n present metas bs w).
  { intros n present bs w L (nulls & values & i & rest & _ & _ & _ & Li & _ & P). destruct (nth_error metas i) as [m|] eqn:E.
    - apply nth_error_In in E. exact (M m w E P).
    - apply nth_error_None in E. lia. }
  split; intros w E.
  - apply (C72_rows_panic d metas B) in E. destruct E as (n & body & A & [(T & _)|(_ & present & rows & _ & _ & rest & _ & _ & P)]); destruct (H n body A) as [L T2]; [exact (T2 T)|exact (Q _ _ _ _ L P)].
  - apply (C72_update_rows_panic d metas B) in E. destruct E as (n & body & A & [(T & _)|(_ & b & a & rows & _ & _ & _ & rest & _ & _ & P)]); destruct (H n body A) as [L T2]; [exact (T2 T)|].
    destruct P as [P|(mid & _ & P)]; exact (Q _ _ _ _ L P).
Qed.
Print Assumptions C72_rows_safe.

(** the smallest DATETIME stops only a build with checks *)
Example C72_ex_datetime : panics_exactly (fst (read_binlog_value_rel (MDateTime 0) (repeat x00 5))) (fun _ => False) /\
  fst (read_binlog_value (MDateTime 0) (repeat x00 5)) = Panic PArith.
Proof. split; [|vm_compute; reflexivity]. split; [intros w; split; [vm_compute; discriminate|intros []]|vm_compute; discriminate]. Qed.
Example C72_ex_blob : release_value_panics (MBlob 5) PUnreachable.
Proof. constructor. lia. Qed.
(** a value for a column the table does not have *)
Definition short_table : rows_data_v2 := mk_rd2 1 0 2 ([x02] ++ [x03] ++ [x00; x07; x07]).
Example C72_ex_column : release_rows_panic 2 [MTiny] ([x02] ++ [x03] ++ [x00; x07; x07]) PIndex.
Proof. apply (C72_rows_panic short_table); vm_compute; reflexivity. Qed.
(** 2^32 - 1 columns and one byte behind them *)
Example C72_ex_too_many : release_rows_panic 2 [MTiny] [xfe; xff; xff; xff; xff; x00; x00; x00; x00; x07] PIndex.
Proof.
  exists (2 ^ 32 - 1), [x07]. split; [exists [], [xfe; xff; xff; xff; xff; x00; x00; x00; x00], (2 ^ 32 - 1); repeat split|].
  left. split; [vm_compute; discriminate|]. split; [discriminate|reflexivity].
Qed.
(** an image before of one column, and an image after in which a blob has no length *)
Example C72_ex_update : release_update_rows_panic 2 [MTiny; MBlob 0] ([x02] ++ [x01] ++ [x03] ++ [x00; x07] ++ [x00; x08; x09]) PUnreachable.
Proof. apply (C72_update_rows_panic (mk_rd2 1 0 2 ([x02] ++ [x01] ++ [x03] ++ [x00; x07] ++ [x00; x08; x09]))); vm_compute; reflexivity. Qed.
Example C72_ex_endless : release_rows_endless 2 ([x02] ++ [x00] ++ [x07]).
Proof. apply (C72_rows_panic (mk_rd2 1 0 2 ([x02] ++ [x00] ++ [x07])) []); vm_compute; reflexivity. Qed.
(** the smallest DATETIME in a row, with the table it belongs to *)
Definition zero_row : rows_data_v2 := mk_rd2 1 0 2 ([x01] ++ [x01] ++ [x00] ++ repeat x00 5).
Example C72_ex_safe : (forall m w, In m [MDateTime 0] -> ~ release_value_panics m w) /\
  (forall n body, release_announces (rd2_extra_data_len zero_row) (rd2_payload zero_row) n body -> n <= N.of_nat (length [MDateTime 0]) /\ ~ too_many n) /\
  (exists r, rows_of_rel zero_row [MDateTime 0] = Ok r) /\ rows_of zero_row [MDateTime 0] = Panic PArith.
Proof.
  split; [intros m w [<-|[]] H; inversion H|]. split; [|split; [eexists; vm_compute; reflexivity|vm_compute; reflexivity]].
  intros n body (extra & w & v & [_ L] & E & D & ->).
  destruct extra as [|x extra].
  - destruct w as [|b w]; [discriminate|]. cbn in E. injection E as <- _. cbn in D. injection D as <- _. split; vm_compute; [discriminate|intros H; apply H; reflexivity].
  - exfalso. assert (Le : (length (x :: extra) <= 8)%nat) by (change 8%nat with (length (rd2_payload zero_row)); rewrite E, !app_length; lia).
    assert (K : N.of_nat (length (x :: extra)) <= 8) by lia. assert (K2 : 1 <= N.of_nat (length (x :: extra))) by (cbn [length]; lia).
    change (rd2_extra_data_len zero_row) with 2 in L. rewrite N.mod_small in L by (change (2 ^ 64) with 18446744073709551616; lia). lia.
Qed.
