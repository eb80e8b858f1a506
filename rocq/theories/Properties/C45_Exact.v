(** C45, continued: exactly which messages bring the decoders of composed messages down.  The messages are described in
    Spec/Panics.v. *)
From Coq Require Import List NArith ZArith Arith Bool Lia.
From Verif Require Import Model.Base Model.BytesParser Model.LenEnc Model.Utf8 Model.Cmd Model.Col Model.Row Model.Rows Model.Event
  Model.EventBody Spec.Nums Spec.Wire Spec.BitmapSpec Spec.Decoders Spec.Catalogue Spec.Panics Proofs.ExactPanicProofs.
Import ListNotations.
Open Scope N_scope.

(** ** Events *)
Theorem C45_event_exact : forall crc self validate bs,
  panics_exactly (fst (parse_event crc self validate bs)) (fun w => w = PArith /\ event_panics crc (p_checksum self) validate bs).
Proof. exact parse_exact. Qed.
Print Assumptions C45_event_exact.
Theorem C45_skip_exact : forall self bs,
  panics_exactly (fst (skip_event self bs)) (fun w => w = PArith /\ whole_header bs /\ announced_length bs < 19).
Proof. exact skip_exact. Qed.
Print Assumptions C45_skip_exact.
Theorem C45_checksum_exact : forall crc self bs, panics_exactly (checksum_event crc self bs)
  (fun w => w = PArith /\ p_checksum self = true /\ whole_header bs /\ announced_length bs < 4).
Proof. exact checksum_exact. Qed.
Print Assumptions C45_checksum_exact.
Theorem C45_format_description_event_exact : forall bs, panics_exactly (fst (from_fde_bytes bs)) (fde_event_panics bs).
Proof. exact from_fde_exact. Qed.
Print Assumptions C45_format_description_event_exact.
(** a header that announces 18 bytes, and one that announces 22 in a log with checksums *)
Definition header_of (len : byte) : bytes := repeat x00 4 ++ x02 :: repeat x00 4 ++ len :: repeat x00 9.
Example C45_event_short : forall crc, event_panics crc false false (header_of x12).
Proof. intros crc. split; [split; [cbv; lia|discriminate]|reflexivity]. Qed.
Example C45_event_unsealed : forall crc, event_panics crc true false (header_of x16 ++ repeat x00 3).
Proof. intros crc. split; [split; [cbv; lia|discriminate]|]. right. split; [reflexivity|discriminate]. Qed.
(** with the check, the wrong checksum is noticed first *)
Example C45_event_noticed : forall crc, (forall b, 0 < crc b) -> ~ event_panics crc true true (header_of x16 ++ repeat x00 3).
Proof.
  intros crc H [_ [L|[_ [_ (body & sum & E & Ls & V)]]]]; [discriminate L|].
  change (firstn (N.to_nat (announced_length (header_of x16 ++ repeat x00 3))) (header_of x16 ++ repeat x00 3)) with ((header_of x16 ++ repeat x00 3)) in E.
  assert (sum = repeat x00 4) as ->. { assert (length body = 18%nat) as Lb. { apply (f_equal (@length _)) in E. rewrite (app_length body) in E. cbn in E. lia. }
    apply (f_equal (skipn 18)) in E. rewrite (skipn_app 18 body), Lb in E. rewrite <- Lb in E at 2. rewrite skipn_all in E. symmetry. exact E. }
  specialize (H body). change (le_val (repeat x00 4)) with 0 in V. rewrite <- V in H. discriminate H.
Qed.
Example C45_format_description_event_short : fde_event_panics (header_of x12) PArith.
Proof. split; [split; [cbv; lia|discriminate]|]. left. split; reflexivity. Qed.

(** ** Rows of a result set *)
Theorem C45_binary_row_exact : forall cts bs,
  panics_exactly (fst (read_binary_row cts bs)) (fun w => w = PArith /\ binary_row_panics cts bs).
Proof. exact binary_row_exact. Qed.
Print Assumptions C45_binary_row_exact.
(** a TINY and a DOUBLE of which two bytes are missing *)
Example C45_binary_row_cut : binary_row_panics [TTiny; TDouble] (x00 :: [x00] ++ x05 :: repeat x01 6).
Proof.
  exists x00, [x00], (x05 :: repeat x01 6). split; [reflexivity|]. split; [reflexivity|].
  eapply cp_value; [reflexivity|reflexivity|]. apply cp_here; [reflexivity|cbv; lia].
Qed.
(** not if the DOUBLE is NULL *)
Example C45_binary_row_null : ~ binary_row_panics [TTiny; TDouble] (x00 :: [x08] ++ x05 :: repeat x01 6).
Proof. intros H. pose proof (proj2 (proj1 (C45_binary_row_exact _ _) PArith) (conj eq_refl H)) as E. vm_compute in E. discriminate E. Qed.

(** ** Table maps *)
Theorem C45_table_map_exact : forall d, N.of_nat (length (tmd_payload d)) < 2 ^ 61 ->
  panics_exactly (table_map_of d) (fun w => w = PUnimplemented /\ table_map_panics (tmd_payload d)).
Proof. exact table_map_exact. Qed.
Print Assumptions C45_table_map_exact.
(** a table d.t of a TINY and a column of type 7 *)
Example C45_table_map_timestamp : table_map_panics [x01; x64; x00; x01; x74; x00; x02; x01; x07; x00; x00].
Proof.
  exists x01, [x64], x00, x01, [x74], x00, [x02], [x01; x07], [x00], [], [x00], []. repeat (split; [reflexivity|]).
  exists [x01], x07, [], [], []. split; [reflexivity|]. split; [reflexivity|]. split; [apply (md_column x01 [] [] []); [reflexivity|discriminate|constructor]|].
  left. left. reflexivity.
Qed.

(** ** Row events *)
Theorem C45_rows_exact : forall extra_len metas payload,
  (forall w, fst (read_rows_v2 extra_len metas payload) = Panic w <-> rows_panic extra_len metas payload w) /\
  (fst (read_rows_v2 extra_len metas payload) = Loop <-> rows_endless extra_len payload).
Proof. exact rows_exact. Qed.
Print Assumptions C45_rows_exact.
Theorem C45_update_rows_exact : forall extra_len metas payload,
  (forall w, fst (read_update_rows extra_len metas payload) = Panic w <-> update_rows_panic extra_len metas payload w) /\
  (fst (read_update_rows extra_len metas payload) = Loop <-> update_rows_endless extra_len payload).
Proof. exact update_rows_exact. Qed.
Print Assumptions C45_update_rows_exact.
(** a row of a TINY and a DATETIME of zeros, after a whole row in which the DATETIME is NULL *)
Example C45_rows_datetime :
  rows_panic 2 [MTiny; MDateTime 0] ([x02] ++ [x03] ++ [x02; x07] ++ [x00; x07] ++ repeat x00 5) PArith.
Proof. apply C45_rows_exact. vm_compute. reflexivity. Qed.
(** the same in an update, where it is the row as it was *)
Example C45_update_rows_datetime :
  update_rows_panic 2 [MTiny; MDateTime 0] ([x02] ++ [x03] ++ [x01] ++ [x00; x07] ++ repeat x00 5 ++ [x00; x07]) PArith.
Proof. apply C45_update_rows_exact. vm_compute. reflexivity. Qed.
(** a value for a column the table does not have *)
Example C45_rows_column : rows_panic 2 [MTiny] ([x02] ++ [x03] ++ [x00; x07; x07]) PIndex.
Proof.
  right. exists 2, [x03], [x00; x07; x07]. split; [|split; [reflexivity|]].
  - split; [|reflexivity]. exists [], [x02], 2. repeat split.
  - exists [x00; x07; x07]. split; [constructor|]. split; [discriminate|]. exists [x00], [x07; x07], 1%nat, [x07]. split; [reflexivity|]. split; [reflexivity|].
    split; [eapply cr_value; [reflexivity|reflexivity|reflexivity|constructor]|]. split; [cbv; lia|]. split; reflexivity.
Qed.
Example C45_rows_endless : rows_endless 2 ([x02] ++ [x00] ++ [x07]).
Proof.
  exists 2, [x00], [x07]. split; [split; [exists [], [x02], 2; repeat split|reflexivity]|]. split; [|discriminate]. split; [reflexivity|].
  intros [|[|i]] L; [reflexivity|reflexivity|]. cbv in L. lia.
Qed.
Example C45_update_rows_endless : update_rows_endless 2 ([x02] ++ [x00] ++ [x00] ++ [x07]).
Proof. apply (proj2 (C45_update_rows_exact 2 [] _)). vm_compute. reflexivity. Qed.

(** ** GTID sets and requests for them *)
Theorem C45_gtid_set_exact : forall bs, panics_exactly (fst (read_gtid_set bs)) (fun w => w = PAlloc /\ gtid_set_panics bs).
Proof. exact gtid_set_exact. Qed.
Print Assumptions C45_gtid_set_exact.
Theorem C45_dump_gtid_exact : forall bs, panics_exactly (fst (read_binlog_dump_gtid bs)) (fun w => w = PAlloc /\ dump_gtid_panics bs).
Proof. exact dump_gtid_exact. Qed.
Print Assumptions C45_dump_gtid_exact.
(** two servers: the first with one interval, the second announcing 2^59 *)
Definition two_servers : bytes :=
  (x02 :: repeat x00 7) ++ (repeat x01 16 ++ (x01 :: repeat x00 7) ++ (x01 :: repeat x00 7) ++ (x05 :: repeat x00 7)) ++ repeat x02 16 ++ (repeat x00 7 ++ [x08]).
Example C45_gtid_set_intervals : gtid_set_panics two_servers.
Proof.
  exists (x02 :: repeat x00 7), (skipn 8 two_servers). split; [reflexivity|]. split; [reflexivity|]. right.
  exists [repeat x01 16 ++ (x01 :: repeat x00 7) ++ (x01 :: repeat x00 7) ++ (x05 :: repeat x00 7)], (repeat x02 16), (repeat x00 7 ++ [x08]), [].
  split; [reflexivity|]. split.
  { constructor; [|constructor]. exists (repeat x01 16), (x01 :: repeat x00 7), ((x01 :: repeat x00 7) ++ (x05 :: repeat x00 7)). repeat (split; [reflexivity|]).
    apply (iv_more 0 (x01 :: repeat x00 7) (x05 :: repeat x00 7) []); try reflexivity. constructor. }
  split; [reflexivity|]. split; [reflexivity|]. split; [reflexivity|]. discriminate.
Qed.
Example C45_dump_gtid_intervals :
  dump_gtid_panics (x1e :: [x04; x00] ++ repeat x00 4 ++ repeat x00 4 ++ repeat x00 8 ++ [x48; x00; x00; x00] ++ two_servers).
Proof. apply (proj1 (C45_dump_gtid_exact _) PAlloc). vm_compute. reflexivity. Qed.

(** ** LOAD events of MySQL 4.0 on *)
Theorem C45_new_load_exact : forall bs, panics_exactly (fst (read_new_load bs)) (fun w => w = PArith /\ new_load_too_long bs).
Proof. exact new_load_exact. Qed.
Print Assumptions C45_new_load_exact.
(** 2^24 + 1 names of 255 bytes: more than 2^32 bytes with the zeros at the end of each *)
Example C45_new_load_long : forall k a strings rest, N.of_nat k = 2 ^ 24 + 1 -> length a = 14%nat -> length strings = 5%nat -> Forall short_string strings ->
  new_load_too_long (a ++ [x01; x00; x00; x01] ++ concat strings ++ x00 :: repeat xff k ++ rest).
Proof.
  intros k a strings rest Hk La Ls F. exists a, [x01; x00; x00; x01], strings, x00, (repeat xff k), rest.
  split; [reflexivity|]. split; [exact La|]. split; [reflexivity|]. split; [exact Ls|]. split; [exact F|]. rewrite repeat_length, Hk. split; [reflexivity|].
  assert (forall k, fold_right (fun l sum => b2n l + sum) 0 (repeat xff k) = 255 * N.of_nat k) as S.
  { induction k0 as [|j IH]; [reflexivity|]. cbn [repeat fold_right]. rewrite IH. change (b2n xff) with 255. lia. }
  rewrite S, Hk. discriminate.
Qed.
