(** C68: the number futures that the macros of bytes-parser define *)
From Coq Require Import List Arith Lia NArith.
From Verif Require Import Model.Base Model.BytesParser Model.NumFuture Spec.NumFutureSpec Proofs.NumFutureProofs.
Import ListNotations.
Open Scope nat_scope.

(** Reading: however the bytes arrive, in whatever pieces, with the future polled too early or interrupted any number of
    times, it ends with the number in the first [len] bytes, and takes these bytes and no more. *)
Theorem C68_read : forall A len (f : bytes -> A) stream before after,
  0 < len -> len <= length stream -> sound before -> len <= offered before ->
  num_read A len f (before ++ after) stream = (Ok (f (firstn len stream)), skipn len stream).
Proof.
  intros A len f stream before after H0 Hl Hs Ho. rewrite num_read_run, (run_whole A len f); [|exact Hs|exact H0|exact Hl|exact Ho].
  cbn [app length]. rewrite Nat.sub_0_r. reflexivity.
Qed.
Print Assumptions C68_read.
(** A stream that ends too early: the number of bytes that are missing is reported. *)
Theorem C68_read_end : forall A len (f : bytes -> A) stream before k after,
  length stream < len -> sound before -> length stream <= offered before ->
  num_read A len f (before ++ RTake k :: after) stream = (Err (EIncomplete (Some (N.of_nat (len - length stream)))), []).
Proof. intros A len f stream before k after Hl Hs Ho. rewrite num_read_run. exact (run_end A len f before [] stream k after Hs Hl Ho). Qed.
Print Assumptions C68_read_end.
(** A reader that fails before the number is complete: its error is returned. *)
Theorem C68_read_failed : forall A len (f : bytes -> A) stream before after,
  sound before -> offered before < len -> offered before <= length stream ->
  num_read A len f (before ++ RFailed :: after) stream = (Err EIO, skipn (offered before) stream).
Proof. intros A len f stream before after Hs Ho Hl. rewrite num_read_run, (run_short A len f); [reflexivity|exact Hs|exact Ho|exact Hl]. Qed.
Print Assumptions C68_read_failed.
(** Until then it waits; it never ends with a number that was not read. *)
Theorem C68_read_waits : forall A len (f : bytes -> A) stream steps,
  sound steps -> offered steps < len -> offered steps <= length stream ->
  num_read A len f steps stream = (Loop, skipn (offered steps) stream).
Proof.
  intros A len f stream steps Hs Ho Hl. rewrite num_read_run, <- (app_nil_r steps) at 1. rewrite (run_short A len f); [reflexivity|exact Hs|exact Ho|exact Hl].
Qed.
Print Assumptions C68_read_waits.

(** Writing: to a writer that takes the number at once, however long it makes the future wait for that, exactly the
    number is sent. *)
Theorem C68_write : forall ns before k after, ns <> [] -> idle before -> length ns <= k ->
  num_write ns (before ++ WTake k :: after) = (Ok tt, ns).
Proof.
  intros ns before k after Hn Hi Hk. rewrite num_write_run, wrun_idle by exact Hi. cbn [wrun]. rewrite Nat.min_r by exact Hk.
  destruct ns as [|b ns]; [congruence|]. cbn [length Nat.eqb Nat.add]. rewrite Nat.eqb_refl. change (S (length ns)) with (length (b :: ns)). rewrite firstn_all. reflexivity.
Qed.
Print Assumptions C68_write.
(** Finding: a writer that takes a part of the number gets its beginning again.  The future may report success with
    wrong bytes sent, or go on sending the number for ever. *)
Theorem C68_write_refuted :
  (forall ns a b, 0 < a -> 0 < b -> a + b = length ns -> num_write ns [WTake a; WTake b] = (Ok tt, firstn a ns ++ firstn b ns)) /\
  num_write [x01; x02; x03; x04] [WTake 2; WTake 2] = (Ok tt, [x01; x02; x01; x02]) /\
  (forall ns a n, 0 < a -> a < length ns -> num_write ns (WTake a :: repeat (WTake (length ns)) n) = (Loop, firstn a ns ++ concat (repeat ns n))).
Proof.
  split; [|split].
  - intros ns a b Ha Hb E. rewrite num_write_run. cbn [wrun]. rewrite !Nat.min_l by lia.
    destruct (Nat.eqb_spec a 0); [lia|]. destruct (Nat.eqb_spec (0 + a) (length ns)); [lia|]. destruct (Nat.eqb_spec b 0); [lia|].
    destruct (Nat.eqb_spec (0 + a + b) (length ns)); [|lia]. reflexivity.
  - reflexivity.
  - intros ns a n Ha Hn. rewrite num_write_run. cbn [wrun]. rewrite Nat.min_l by lia.
    destruct (Nat.eqb_spec a 0); [lia|]. destruct (Nat.eqb_spec (0 + a) (length ns)); [lia|]. cbn [app].
    assert (G : forall n w out, 0 < w -> 0 < length ns -> wrun ns w (repeat (WTake (length ns)) n) out = (Loop, out ++ concat (repeat ns n))).
    { clear. induction n as [|n IH]; intros w out Hw Hz; [cbn; rewrite app_nil_r; reflexivity|]. cbn [repeat wrun concat]. rewrite Nat.min_id, firstn_all.
      destruct (Nat.eqb_spec (length ns) 0); [lia|]. destruct (Nat.eqb_spec (w + length ns) (length ns)); [lia|]. rewrite IH by lia. rewrite <- app_assoc. reflexivity. }
    apply G; lia.
Qed.
Print Assumptions C68_write_refuted.
(** Exactly when it is sent right, for a number whose first byte occurs only once in it: if the writer takes it at once. *)
Theorem C68_write_exact : forall b tl steps, ~ In b tl ->
  (num_write (b :: tl) steps = (Ok tt, b :: tl) <->
   exists before k after, steps = before ++ WTake k :: after /\ idle before /\ length (b :: tl) <= k).
Proof.
  intros b tl steps Hb. split.
  - rewrite num_write_run. intros E. exact (wrun_exact (b :: tl) b tl steps eq_refl Hb E).
  - intros (before & k & after & -> & Hi & Hk). apply C68_write; [discriminate|exact Hi|exact Hk].
Qed.
Print Assumptions C68_write_exact.

Example C68_example :
  let stream := [x01; x02; x03; x04; x05] in
  let steps := [RPending; RTake 0; RInterrupted; RTake 1; RPending; RTake 7] in
  sound steps /\ offered steps = 11 /\ num_read N 4 get_le steps stream = (Ok 0x04030201%N, [x05]) /\
  num_read N 4 get_le steps [x01; x02] = (Err (EIncomplete (Some 2%N)), []) /\
  num_read N 4 get_le [RTake 0; RFailed] stream = (Err EIO, [x02; x03; x04; x05]) /\
  ~ In x01 [x02; x03; x04] /\ idle [WPending; WInterrupted] /\
  num_write [x01; x02; x03; x04] [WPending; WInterrupted; WTake 4] = (Ok tt, [x01; x02; x03; x04]) /\
  num_write [x01; x02; x03; x04] [WTake 3; WPending; WTake 4] = (Ok tt, [x01; x02; x03; x01; x02; x03; x04]).
Proof.
  cbv zeta. split; [unfold sound; cbn; intuition discriminate|]. split; [reflexivity|]. split; [reflexivity|]. split; [reflexivity|]. split; [reflexivity|].
  split; [cbn; intuition discriminate|]. split; [repeat (constructor; [tauto|]); constructor|]. split; reflexivity.
Qed.
