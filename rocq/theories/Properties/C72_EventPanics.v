(** C72 for the start of a log, checksums, table maps and LOAD events: exactly what stops a release build there; and C45
    for the opening of a file *)
From Coq Require Import List NArith Arith Bool Lia.
From Verif Require Import Model.Base Model.BytesParser Model.Utf8 Model.Event Model.EventBody Model.Rows Model.Release
  Spec.Nums Spec.Decoders Spec.Catalogue Spec.Panics Spec.ReleaseAccepts Spec.ReleaseEventPanics
  Proofs.ExactPanicProofs Proofs.ReleaseEventPanics.
Import ListNotations.
Open Scope N_scope.

(** opening a file, with checks *)
Theorem C45_open_exact : forall bs, panics_exactly (fst (from_binlog_file bs)) (fun w => at_file_start (fun ev => fde_event_panics ev w) bs).
Proof. exact open_exact. Qed.
Print Assumptions C45_open_exact.
(** opening a file, without *)
Theorem C72_open_panics : forall bs, panics_exactly (fst (from_binlog_file_rel bs)) (fun w => w = PIndex /\ at_file_start release_fde_event_panics bs).
Proof. exact open_rel_exact. Qed.
Print Assumptions C72_open_panics.
(** the first event of a stream *)
Theorem C72_first_event_panics : forall bs, panics_exactly (fst (from_fde_bytes_rel bs)) (fun w => w = PIndex /\ release_fde_event_panics bs).
Proof. exact from_fde_rel_exact. Qed.
Print Assumptions C72_first_event_panics.
(** comparing a checksum *)
Theorem C72_checksum_panics : forall crc self bs, panics_exactly (checksum_event_rel crc self bs)
  (fun w => w = PIndex /\ p_checksum self = true /\ whole_header bs /\ announced_length bs < 4).
Proof. exact checksum_rel_exact. Qed.
Print Assumptions C72_checksum_panics.
(** a table map: no difference *)
Theorem C72_table_map_panics : forall d, N.of_nat (length (tmd_payload d)) < 2 ^ 61 ->
  table_map_of_rel d = table_map_of d /\ panics_exactly (table_map_of_rel d) (fun w => w = PUnimplemented /\ table_map_panics (tmd_payload d)).
Proof. intros d L. rewrite (table_map_rel_same d L). split; [reflexivity|exact (table_map_exact d L)]. Qed.
Print Assumptions C72_table_map_panics.
(** LOAD events: nothing *)
Theorem C72_loads : forall bs, returns (fst (read_load_rel bs)) /\ returns (fst (read_new_load_rel bs)).
Proof. intros bs. split; [apply load_rel_returns|apply new_load_rel_returns]. Qed.
Print Assumptions C72_loads.

(** a header of a format description that announces so many bytes *)
Definition fde_header (len : byte) : bytes := repeat x00 4 ++ x0f :: repeat x00 4 ++ len :: repeat x00 9.
(** its own post-header length is 0: 199 bytes wanted (modulo 2^8), 15 there; a build with checks stops at the difference *)
Definition short_fde : bytes := [x04; x00] ++ (x35 :: repeat x00 49) ++ repeat x00 4 ++ x13 :: repeat x00 15.
Example C72_ex_open : at_file_start release_fde_event_panics ([xfe; x62; x69; x6e] ++ fde_header x5b ++ short_fde) /\
  fst (from_binlog_file ([xfe; x62; x69; x6e] ++ fde_header x5b ++ short_fde)) = Panic PArith.
Proof.
  split; [|vm_compute; reflexivity]. apply (proj1 (C72_open_panics _) PIndex). vm_compute. reflexivity.
Qed.
(** an event that announces 18 bytes asks for 2^32 - 1 more, which are not there: an error now *)
Example C72_ex_short_header : (exists e, fst (from_fde_bytes_rel (fde_header x12)) = Err e) /\ fst (from_fde_bytes (fde_header x12)) = Panic PArith.
Proof. split; [eexists|]; vm_compute; reflexivity. Qed.
Example C45_ex_open : at_file_start (fun ev => fde_event_panics ev PArith) ([xfe; x62; x69; x6e] ++ fde_header x12).
Proof. apply (proj1 (C45_open_exact _) PArith). vm_compute. reflexivity. Qed.
Example C72_ex_checksum : forall crc, checksum_event_rel crc (mk_parser [] true) (fde_header x03) = Panic PIndex.
Proof. intros crc. apply (proj1 (C72_checksum_panics crc (mk_parser [] true) (fde_header x03)) PIndex). split; [reflexivity|]. split; [reflexivity|]. split; [split; [cbn; lia|vm_compute; discriminate]|reflexivity]. Qed.
(** a table d.t of a TINY and a column of type 7 *)
Example C72_ex_table_map : table_map_of_rel (mk_tmd 1 0 [x01; x64; x00; x01; x74; x00; x02; x01; x07; x00; x00]) = Panic PUnimplemented.
Proof. vm_compute. reflexivity. Qed.
