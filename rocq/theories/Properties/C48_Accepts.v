(** C48: exactly which texts are read as a TIME, and as which.
    Specification: Spec/TimeText.v. *)
From Coq Require Import Strings.String.
From Verif Require Import Model.Base Model.Auth Model.Utf8 Model.Time Model.Release Spec.Temporal Spec.ExtractSpec Spec.TimeText Proofs.BaseLemmas Proofs.TimeTextProofs.
From Coq Require Import Lia ZArith.
Open Scope N_scope.

(** whatever bytes the column holds *)
Theorem C48_accepts : forall bs t, time_from_text bs = Ok t <->
  exists hours, time_text_of hours t bs /\ (- 2 ^ 63 < hours < 2 ^ 63)%Z.
Proof. exact text_accepts. Qed.
Print Assumptions C48_accepts.

(** one text more without checks: the lowest number of hours *)
Theorem C48_accepts_release : forall bs t, time_from_text_rel bs = Ok t <->
  exists hours, time_text_of hours t bs /\ (- 2 ^ 63 <= hours < 2 ^ 63)%Z.
Proof. exact text_accepts_rel. Qed.
Print Assumptions C48_accepts_release.

(** Finding: with checks that number of hours panics, whatever minutes and seconds follow. Nothing else does. *)
Theorem C48_panics : forall bs p, time_from_text bs = Panic p <-> p = PArith /\ utf8_valid bs = true /\ lowest_hours_text bs.
Proof. exact text_panics. Qed.
Print Assumptions C48_panics.

Theorem C48_release_never_panics : forall bs p, time_from_text_rel bs <> Panic p.
Proof. exact text_rel_no_panic. Qed.
Print Assumptions C48_release_never_panics.

(** every other text is refused, with an error that tells whether it was UTF-8 *)
Theorem C48_refuses : forall bs,
  (forall hours t, time_text_of hours t bs -> (hours <= - 2 ^ 63 \/ 2 ^ 63 <= hours)%Z) -> ~ lowest_hours_text bs ->
  time_from_text bs = Err (if utf8_valid bs then EParseValue else EUtf8).
Proof.
  intros bs H L. destruct (text_cases bs) as [(t & E)|[(p & E)|E]]; [| |exact E]; exfalso.
  - apply C48_accepts in E as (hours & T & B). specialize (H _ _ T). lia.
  - apply C48_panics in E as (_ & _ & K). contradiction.
Qed.
Print Assumptions C48_refuses.

(** ** Examples *)
(** an ideographic space and a tab in front, signs everywhere, and a number of hours beyond 32 bits *)
Example C48_accepts_example :
  time_from_text ([xe3; x80; x80; x09] ++ str "-4294967321:+5:7.025") = Ok (mk_time true 1 1 5 7 25000).
Proof.
  apply C48_accepts. exists (- 4294967321)%Z. split; [|lia].
  exists [xe3; x80; x80; x09], (str "-4294967321"), (str "+5"), (str "7"), (str ".025").
  split. { exists [[xe3; x80; x80]; [x09]]. split; [|reflexivity]. constructor; [in_spaces|constructor; [in_spaces|constructor]]. }
  split; [reflexivity|].
  split. { exists 9%nat, 4294967321, [n2b 45]. split; [vm_compute; reflexivity|]. split; [reflexivity|]. right; split; reflexivity. }
  split. { exists 0%nat, [n2b 43]. split; [reflexivity|]. split; [reflexivity|]. right; reflexivity. }
  split; [reflexivity|].
  split. { exists 0%nat, (@nil byte). split; [reflexivity|]. split; [reflexivity|]. left; reflexivity. }
  split; [reflexivity|].
  split. { right. exists (str "025"), 25. split; [reflexivity|]. split.
    { exists 2%nat, (@nil byte). split; [reflexivity|]. split; [reflexivity|]. left; reflexivity. }
    split; [reflexivity|]. left; split; reflexivity. }
  split; [split; reflexivity|]. split; reflexivity.
Qed.
Example C48_lowest_example :
  time_from_text (str "-9223372036854775808:0:x") = Panic PArith /\
  time_from_text (str "-9223372036854775808:0:0") = Panic PArith /\
  time_from_text_rel (str "-9223372036854775808:0:0") = Ok (mk_time true 0 0 0 0 0).
Proof.
  assert (S : signed_text (- 2 ^ 63) (str "-9223372036854775808")).
  { exists 18%nat, 9223372036854775808, [n2b 45]. split; [vm_compute; reflexivity|]. split; [reflexivity|]. right; split; reflexivity. }
  split; [|split].
  - apply C48_panics. split; [reflexivity|]. split; [reflexivity|].
    exists [], (str "-9223372036854775808"), (str "0"), (str "x").
    split; [apply white_nil|]. split; [reflexivity|]. split; [exact S|]. split; intros [K|[]]; discriminate.
  - apply C48_panics. split; [reflexivity|]. split; [reflexivity|].
    exists [], (str "-9223372036854775808"), (str "0"), (str "0").
    split; [apply white_nil|]. split; [reflexivity|]. split; [exact S|]. split; intros [K|[]]; discriminate.
  - apply C48_accepts_release. exists (- 2 ^ 63)%Z. split; [|lia].
    exists [], (str "-9223372036854775808"), (str "0"), (str "0"), [].
    split; [apply white_nil|]. split; [reflexivity|]. split; [exact S|].
    assert (Z0 : unsigned_text 0 (str "0")) by (exists 0%nat, (@nil byte); split; [reflexivity|]; split; [reflexivity|]; left; reflexivity).
    split; [exact Z0|]. split; [reflexivity|]. split; [exact Z0|]. split; [reflexivity|]. split; [left; split; reflexivity|].
    split; [split; reflexivity|]. split; reflexivity.
Qed.
(** no colon at all *)
Example C48_refuses_example : time_from_text (str "12") = Err EParseValue.
Proof.
  apply (C48_refuses (str "12")).
  - intros hours t (ws & h & m & s & f & _ & E & _). exfalso.
    assert (In (n2b 58) (str "12")) as K by (rewrite E, !in_app_iff; right; right; left; reflexivity).
    cbn in K. decompose [or] K; try discriminate; contradiction.
  - intros (ws & h & m & s & _ & E & _).
    assert (In (n2b 58) (str "12")) as K by (rewrite E, !in_app_iff; right; right; left; reflexivity).
    cbn in K. decompose [or] K; try discriminate; contradiction.
Qed.
