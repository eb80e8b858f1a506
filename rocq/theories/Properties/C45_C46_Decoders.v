(** C45: which input makes a decoder panic.  C46: decoders use a prefix of their input and nothing else.
    The decoders and the panicking inputs are listed in Spec/Catalogue.v. *)
From Coq Require Import Strings.String.
From Coq Require Import List NArith ZArith Arith Bool.
From Verif Require Import Model.Base Model.BytesParser Model.LenEnc Model.Utf8 Model.Flags Model.Packet Model.Cmd Model.Time
  Model.Decimal Model.Col Model.Row Model.Rows Model.Event Model.EventBody Model.Stmt Model.Session
  Spec.Nums Spec.Wire Spec.BitmapSpec Spec.DecimalSpec Spec.Decoders Spec.Catalogue
  Proofs.LocalProofs Proofs.TotalProofs Proofs.PanicProofs Proofs.EventPanicProofs.
Import ListNotations.
Open Scope N_scope.

(** ** C45 *)
(** the decoders of [panic_free] return a value or an error on every input *)
Theorem C45_panic_free : forall A (p : parser A), panic_free p -> forall bs, returns (fst (p bs)).
Proof. exact panic_free_ok. Qed.
Print Assumptions C45_panic_free.
(** Finding: the other decoders are not free of panics; the theorems below say when each of them panics.
    A greeting of a server with secure connections but a short seed: *)
Theorem C45_greeting : forall bs,
  panics_exactly (fst (read_initial_handshake bs)) (fun w => w = PArith /\ short_auth_data bs).
Proof. exact greeting_exact. Qed.
Print Assumptions C45_greeting.
(** a text row: only if the result set announces 2^58 columns or more *)
Theorem C45_text_row : forall n bs, panics_exactly (fst (read_text_row n bs)) (fun w => w = PAlloc /\ 2 ^ 58 <= n).
Proof. exact text_row_exact. Qed.
Print Assumptions C45_text_row.
(** a binary value: a DOUBLE of which five to seven bytes are left *)
Theorem C45_binary_value : forall ct bs,
  panics_exactly (fst (read_binary_value ct bs)) (fun w => w = PArith /\ binary_value_panics ct bs).
Proof. exact binary_value_exact. Qed.
Print Assumptions C45_binary_value.
(** a binary row: only at such a value *)
Theorem C45_binary_row : forall cts bs, match fst (read_binary_row cts bs) with
  | Panic w => w = PArith /\ exists ct tail, In ct cts /\ final_part tail bs /\ binary_value_panics ct tail
  | Loop => False
  | _ => True
  end.
Proof. exact binary_row_only. Qed.
Print Assumptions C45_binary_row.
(** a binlog value *)
Theorem C45_binlog_value : forall m bs, panics_exactly (fst (read_binlog_value m bs)) (value_panics m bs).
Proof. exact value_exact. Qed.
Print Assumptions C45_binlog_value.
(** an event: only if it announces a length smaller than its header (with a checksum: and checksum) *)
Theorem C45_event : forall crc self validate bs,
  (length bs < 13)%nat \/ (if p_checksum self then 23 else 19) <= announced_length bs ->
  returns (fst (parse_event crc self validate bs)).
Proof. exact parse_returns. Qed.
Print Assumptions C45_event.
Theorem C45_skip : forall self bs, (length bs < 13)%nat \/ 19 <= announced_length bs ->
  returns (fst (skip_event self bs)).
Proof. exact skip_returns. Qed.
Print Assumptions C45_skip.
(** a format description *)
Theorem C45_format_description : forall data, panics_exactly (fst (read_fde data)) (fde_panics data).
Proof. exact fde_exact. Qed.
Print Assumptions C45_format_description.
Theorem C45_format_description_event : forall bs, match fst (from_fde_bytes bs) with
  | Panic w => (w = PArith /\ announced_length bs < 19) \/
               fde_panics (firstn (N.to_nat (announced_length bs - 19)) (skipn 19 bs)) w
  | Loop => False
  | _ => True
  end.
Proof. exact from_fde_only. Qed.
Print Assumptions C45_format_description_event.
(** a table map: only if it lists a column type that is not supported *)
Theorem C45_table_map : forall d, N.of_nat (length (tmd_payload d)) < 2 ^ 61 -> match table_map_of d with
  | Panic w => w = PUnimplemented /\
      exists cols code, lists_columns (tmd_payload d) cols /\ In code cols /\ unsupported_column code
  | Loop => False
  | _ => True
  end.
Proof. exact table_map_only. Qed.
Print Assumptions C45_table_map.
(** row events: a bad length of the extra data, more columns announced than the table has, or a value;
    and they do not end only if no column is present but bytes are left *)
Theorem C45_rows : forall extra_len metas payload, match fst (read_rows_v2 extra_len metas payload) with
  | Panic w => row_event_panics extra_len payload metas w
  | Loop => exists n bm more, announces extra_len payload n (bm ++ more) /\ none_present n bm /\ more <> []
  | _ => True
  end.
Proof. exact rows_cases. Qed.
Print Assumptions C45_rows.
Theorem C45_update_rows : forall extra_len metas payload, match fst (read_update_rows extra_len metas payload) with
  | Panic w => row_event_panics extra_len payload metas w
  | Loop => exists n before after more, announces extra_len payload n (before ++ after ++ more) /\
      none_present n before /\ none_present n after /\ more <> []
  | _ => True
  end.
Proof. exact update_rows_cases. Qed.
Print Assumptions C45_update_rows.
(** GTID sets and requests for them: only if a count of 2^57 or more occurs *)
Theorem C45_gtid_set : forall bs, match fst (read_gtid_set bs) with
  | Panic w => w = PAlloc /\ huge_count bs | Loop => False | _ => True end.
Proof. exact gtid_set_only. Qed.
Print Assumptions C45_gtid_set.
Theorem C45_dump_gtid : forall bs, match fst (read_binlog_dump_gtid bs) with
  | Panic w => w = PAlloc /\ huge_count bs | Loop => False | _ => True end.
Proof. exact dump_gtid_only. Qed.
Print Assumptions C45_dump_gtid.
(** LOAD events: only if the field names take 2^32 bytes or more *)
Theorem C45_load : forall bs, panics_exactly (fst (read_load bs)) (fun w => w = PArith /\ load_too_long bs).
Proof. exact load_exact. Qed.
Print Assumptions C45_load.
Theorem C45_new_load : forall bs, N.of_nat (length bs) < 2 ^ 24 -> returns (fst (read_new_load bs)).
Proof. exact new_load_small. Qed.
Print Assumptions C45_new_load.

(** *** Cases *)
(** a DOUBLE of six bytes, a DATETIME of zeros, a BIT(2048+), a DECIMAL whose last digits do not fit *)
Theorem C45_double_refuted : fst (read_binary_value TDouble (repeat x01 6)) = Panic PArith.
Proof. reflexivity. Qed.
Print Assumptions C45_double_refuted.
Theorem C45_datetime_refuted : fst (read_binlog_value (MDateTime 0) (repeat x00 5)) = Panic PArith.
Proof. reflexivity. Qed.
Print Assumptions C45_datetime_refuted.
Example C45_decimal_case : value_panics (MNewDecimal 5 5) [xff; xff; xff] PArith.
Proof.
  apply (vp_decimal 5 5 [] [xff; xff; xff] []); try reflexivity; discriminate.
Qed.
Theorem C45_decimal_refuted : fst (read_binlog_value (MNewDecimal 5 5) [xff; xff; xff]) = Panic PArith.
Proof. apply (proj1 (C45_binlog_value _ _)). exact C45_decimal_case. Qed.
Print Assumptions C45_decimal_refuted.
(** eight 0xff bytes as a GTID set *)
Theorem C45_gtid_refuted : fst (read_gtid_set (repeat xff 8)) = Panic PAlloc.
Proof. vm_compute. reflexivity. Qed.
Print Assumptions C45_gtid_refuted.
(** a table map with a TIMESTAMP column of the old format *)
Theorem C45_table_map_refuted :
  table_map_of (mk_tmd 1 0 [x01; x64; x00; x01; x74; x00; x01; x07; x00; x00]) = Panic PUnimplemented.
Proof. reflexivity. Qed.
Print Assumptions C45_table_map_refuted.
Example C45_table_map_case : lists_columns [x01; x64; x00; x01; x74; x00; x01; x07; x00; x00] [x07] /\ unsupported_column x07.
Proof.
  split; [|cbn; tauto]. exists x01, [x64], x00, x01, [x74], x00, [x01], [x00; x00]. repeat split.
Qed.
(** an empty format description of length zero *)
Theorem C45_fde_refuted : fst (read_fde ([x04; x00] ++ repeat x00 50 ++ repeat x00 5)) = Panic PIndex.
Proof. reflexivity. Qed.
Print Assumptions C45_fde_refuted.
Example C45_fde_case : fde_panics ([x04; x00] ++ ([] ++ x00 :: repeat x00 49) ++ repeat x00 5 ++ []) PIndex.
Proof. apply fp_few; try reflexivity; [intros []|apply le_n_S, Nat.le_0_l]. Qed.
(** a LOAD event with 2^24 field names of 255 bytes *)
Theorem C45_load_refuted : forall a b rest, length a = 14%nat -> length b = 7%nat ->
  fst (read_load (a ++ [x00; x00; x00; x01] ++ b ++ repeat xff (N.to_nat (2 ^ 24)) ++ rest)) = Panic PArith.
Proof.
  intros a b rest La Lb. apply (proj1 (C45_load _)). split; [reflexivity|].
  exists a, [x00; x00; x00; x01], b, (repeat xff (N.to_nat (2 ^ 24))), rest. split; [reflexivity|]. split; [exact La|].
  split; [reflexivity|]. split; [exact Lb|]. rewrite repeat_length, N2Nat.id. split; [reflexivity|].
  assert (forall n, fold_right (fun l sum => b2n l + sum) 0 (repeat xff n) = 255 * N.of_nat n) as E.
  { induction n as [|n IH]; [reflexivity|]. cbn [repeat fold_right]. rewrite IH, Nat2N.inj_succ, N.mul_succ_r, N.add_comm. reflexivity. }
  rewrite E, N2Nat.id. discriminate.
Qed.
Print Assumptions C45_load_refuted.
Example C45_event_case : (length (repeat x01 30) < 13)%nat \/ 19 <= announced_length (repeat x01 30).
Proof. right. discriminate. Qed.

(** ** C46 *)
(** every decoder leaves a final part of its input, whether it succeeds or not *)
Theorem C46_suffix : forall A (p : parser A), self_delimiting p \/ open_ended p -> forall bs, final_part (snd (p bs)) bs.
Proof. exact decoder_suffix. Qed.
Print Assumptions C46_suffix.
(** the bytes used determine the result: what follows them is left alone *)
Theorem C46_self_contained : forall A (p : parser A), self_delimiting p ->
  forall used rest ext a, p (used ++ rest) = (Ok a, rest) -> p (used ++ ext) = (Ok a, ext).
Proof. exact self_delimiting_self. Qed.
Print Assumptions C46_self_contained.
(** and all of them are needed: no input ending inside them is accepted *)
Theorem C46_cut : forall A (p : parser A) bs a rest, self_delimiting p -> p bs = (Ok a, rest) ->
  exists used, bs = used ++ rest /\
    forall pre missing b r, used = pre ++ missing -> missing <> [] -> p pre <> (Ok b, r).
Proof.
  intros A p bs a rest H E. destruct (tidy_cut A p bs a rest (self_delimiting_tidy A p H) E) as (u & -> & _ & C). exists u. auto.
Qed.
Print Assumptions C46_cut.
(** Finding: a DECIMAL reads the end of the input as zero, so that one is not self-delimiting *)
Theorem C46_decimal_refuted : forall prec frac, frac <= prec ->
  fst (read_binlog_value (MNewDecimal prec frac) []) = Ok (LNewDecimal (mk_dec (prec - frac) frac false [])).
Proof. intros prec frac L. rewrite (decimal_empty prec frac L). reflexivity. Qed.
Print Assumptions C46_decimal_refuted.
(** but otherwise it is *)
Theorem C46_decimal : forall prec frac used rest ext a, used <> [] ->
  read_binlog_value (MNewDecimal prec frac) (used ++ rest) = (Ok a, rest) ->
  read_binlog_value (MNewDecimal prec frac) (used ++ ext) = (Ok a, ext).
Proof. exact decimal_self. Qed.
Print Assumptions C46_decimal.
(** *** Cases *)
Example C46_case : read_len_enc_str ([x02; x61; x62] ++ [x63]) = (Ok (LesBytes [x61; x62]), [x63]).
Proof. reflexivity. Qed.
Example C46_decimal_case : exists a, read_binlog_value (MNewDecimal 3 1) ([x8c; x05] ++ [x07]) = (Ok a, [x07]).
Proof. eexists. reflexivity. Qed.
