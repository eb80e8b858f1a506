(** C76, continued: which files are opened and what is read from them.  The layouts are in Spec/AcceptsFile.v and Spec/AcceptsEvents.v *)
From Coq Require Import List NArith Lia Bool.
From Verif Require Import Model.Base Model.Event Spec.Nums Spec.Accepts Spec.AcceptsEvents Spec.AcceptsFile Proofs.AcceptsFileProofs.
Import ListNotations.
Open Scope N_scope.

(** opening a file, or starting from the format description alone *)
Theorem C76_open : takes_exactly from_binlog_file opened_layout /\
  takes_exactly from_fde_bytes (fun o w => exists h, first_event_layout h o w).
Proof. split; [exact accepts_open|exact accepts_first]. Qed.
Print Assumptions C76_open.
(** opening a file and reading its first [n] further events *)
Theorem C76_file : forall crc validate n,
  takes_exactly (p <- from_binlog_file ;; prepeat n (parse_event crc p validate)) (file_layout crc validate n).
Proof. exact accepts_file. Qed.
Print Assumptions C76_file.
(** verifying an event without consuming it *)
Theorem C76_checksum : forall crc self bs, checksum_event crc self bs = Ok tt <-> p_checksum self = true /\ checked_layout crc bs.
Proof. exact accepts_checksum. Qed.
Print Assumptions C76_checksum.

(** a file with a table of 15 lengths, checksums and a commit of transaction 5; [own] is the entry of the table for the format description *)
Definition small_file (own : byte) : bytes := [xfe; x62; x69; x6e] ++
  [x01; x00; x00; x00; x0f; x01; x00; x00; x00; x60; x00; x00; x00; x64; x00; x00; x00; x00; x00] ++
  [x04; x00] ++ [x38; x2e; x30] ++ repeat x00 47 ++ [x01; x00; x00; x00; x13] ++ repeat x08 14 ++ [own] ++ [x01; x0b; x00; x00; x00] ++
  [x01; x00; x00; x00; x10; x01; x00; x00; x00; x1f; x00; x00; x00; x00; x00; x00; x00; x00; x00;
   x05; x00; x00; x00; x00; x00; x00; x00; x07; x00; x00; x00].
Example C76_small_file : forall crc, file_layout crc false 1 [Some (mk_event KXid (mk_header 1 EtXid 1 31 0 0) [x05; x00; x00; x00; x00; x00; x00; x00])] (small_file x48).
Proof.
  intros crc. destruct (proj1 (accepts_file crc false 1 (small_file x48) [Some (mk_event KXid (mk_header 1 EtXid 1 31 0 0) [x05; x00; x00; x00; x00; x00; x00; x00])] []))
    as (w & Ew & X); [vm_compute; reflexivity|]. rewrite app_nil_r in Ew. rewrite Ew. exact X.
Qed.
(** an entry that makes the table longer than the event is refused, and so is one event more than there are *)
Example C76_small_file_refused : forall crc es, ~ file_layout crc false 1 es (small_file x60) /\ ~ file_layout crc false 2 es (small_file x48).
Proof.
  intros crc es. split; intros H.
  - assert (X : (p <- from_binlog_file ;; prepeat 1 (parse_event crc p false)) (small_file x60 ++ []) = (Ok es, [])) by (apply accepts_file; eauto).
    vm_compute in X. discriminate.
  - assert (X : (p <- from_binlog_file ;; prepeat 2 (parse_event crc p false)) (small_file x48 ++ []) = (Ok es, [])) by (apply accepts_file; eauto).
    vm_compute in X. discriminate.
Qed.
