(** C47-C48: TIME and DATETIME as stored in the binlog and as sent in text rows.
    Specification: Spec/Temporal.v. *)
From Coq Require Import Strings.String.
From Verif Require Import Model.Base Model.Auth Model.Time Spec.Temporal Proofs.TimeProofs.
Open Scope N_scope.

(** ** C47 *)
Theorem C47_time : forall dec t rest, stored_time dec t ->
  t_neg t = false \/ t_micro t = 0 \/ 5 <= dec ->
  time_from_binlog dec (time_bytes dec t ++ rest) = (Ok t, rest).
Proof. exact time_decodes. Qed.
Print Assumptions C47_time.

(** Finding: a negative TIME with one to four fractional digits and a fraction decodes to a
    wrong number of microseconds, always too large by the same amount. *)
Theorem C47_negative_fraction_refuted : forall dec t rest,
  stored_time dec t -> t_neg t = true -> t_micro t <> 0 -> dec <= 4 ->
  time_from_binlog dec (time_bytes dec t ++ rest)
  = (Ok (mk_time true (t_days t) (t_hour t) (t_minute t) (t_second t) (t_micro t + borrow_error dec)), rest).
Proof. exact time_neg_fraction. Qed.
Print Assumptions C47_negative_fraction_refuted.

Theorem C47_datetime : forall dec t rest, stored_datetime dec t ->
  datetime_from_binlog dec (datetime_bytes dec t ++ rest) = (Ok t, rest).
Proof. exact datetime_decodes. Qed.
Print Assumptions C47_datetime.

Example C47_example :
  time_from_binlog 6 ([x7f; xef; x7c; xff; x4f; xf5] ++ []) = (Ok (mk_time true 0 1 2 3 45067), []) /\
  time_from_binlog 0 ([x7f; xef; x7d] ++ []) = (Ok (mk_time true 0 1 2 3 0), []) /\
  time_from_binlog 2 ([x7f; xef; x7c; xff] ++ []) = (Ok (mk_time true 0 1 2 3 (10000 + 14217216)), []) /\
  datetime_from_binlog 3 (datetime_bytes 3 (mk_dt 2020 12 31 23 59 59 999000) ++ []) = (Ok (mk_dt 2020 12 31 23 59 59 999000), []).
Proof.
  split; [|split; [|split]].
  - apply (C47_time 6 (mk_time true 0 1 2 3 45067)); [|right; right; discriminate].
    unfold stored_time, hours_of; cbn; repeat split; discriminate.
  - apply (C47_time 0 (mk_time true 0 1 2 3 0)); [|right; left; reflexivity].
    unfold stored_time, hours_of; cbn; repeat split; discriminate.
  - apply (C47_negative_fraction_refuted 2 (mk_time true 0 1 2 3 10000)); [|reflexivity|discriminate|discriminate].
    unfold stored_time, hours_of; cbn; repeat split; discriminate.
  - apply C47_datetime. unfold stored_datetime; cbn; repeat split; discriminate.
Qed.

(** ** C48 *)
(** exactly what the parser makes of every TIME text a server sends *)
Theorem C48_text_time_exact : forall dec t, stored_time dec t ->
  time_from_text (text_time dec t)
  = Ok (mk_time (t_neg t && negb (hours_of t =? 0)) (t_days t) (t_hour t) (t_minute t) (t_second t)
       (text_micro dec (t_micro t))).
Proof. exact time_text. Qed.
Print Assumptions C48_text_time_exact.

Theorem C48_text_time : forall dec t, stored_time dec t ->
  (t_neg t = true -> hours_of t <> 0) -> t_micro t = 0 \/ dec = 3 \/ dec = 6 ->
  time_from_text (text_time dec t) = Ok t.
Proof. exact time_text_exact. Qed.
Print Assumptions C48_text_time.

(** Findings: the sign of "-00:30:00" is lost; "00:00:00.5" is read as 5 microseconds. *)
Theorem C48_sign_lost_refuted : forall dec t, stored_time dec t -> t_neg t = true -> hours_of t = 0 ->
  exists t', time_from_text (text_time dec t) = Ok t' /\ t_neg t' = false.
Proof.
  intros dec t Hst Hn Hh. rewrite (C48_text_time_exact dec t Hst), Hn, Hh. eexists. split; reflexivity.
Qed.
Print Assumptions C48_sign_lost_refuted.

Theorem C48_fraction_refuted : forall dec t, stored_time dec t -> t_micro t <> 0 -> dec <> 3 -> dec <> 6 ->
  exists t', time_from_text (text_time dec t) = Ok t' /\ t_micro t' < t_micro t.
Proof. exact time_text_fraction. Qed.
Print Assumptions C48_fraction_refuted.

Example C48_example :
  time_from_text (str "-838:59:58.004") = Ok (mk_time true 34 22 59 58 4000) /\
  time_from_text (str "-00:30:00") = Ok (mk_time false 0 0 30 0 0) /\
  time_from_text (str "00:00:00.5") = Ok (mk_time false 0 0 0 0 5).
Proof.
  split; [|split].
  - apply (C48_text_time 3 (mk_time true 34 22 59 58 4000)); [|discriminate|right; left; reflexivity].
    unfold stored_time, hours_of; cbn; repeat split; discriminate.
  - apply (C48_text_time_exact 0 (mk_time true 0 0 30 0 0)).
    unfold stored_time, hours_of; cbn; repeat split; discriminate.
  - apply (C48_text_time_exact 1 (mk_time false 0 0 0 0 500000)).
    unfold stored_time, hours_of; cbn; repeat split; discriminate.
Qed.
