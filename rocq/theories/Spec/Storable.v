(** * Specification: the temporal values that a MySQL server stores *)
From Coq Require Import List NArith.
From Verif Require Import Model.Base Model.Time Model.Col Spec.Temporal.
Open Scope N_scope.

(** years up to 9999, times of day, times up to 838:59:59; months and days may be zero or too large (0000-00-00,
    2020-02-30 with ALLOW_INVALID_DATES) *)
Definition storable (v : binlog_value) : Prop :=
  match v with
  | LDate y _ _ => y <= 9999
  | LDateTime t => dt_year t <= 9999 /\ dt_hour t < 24 /\ dt_minute t < 60 /\ dt_second t < 60 /\ dt_micro t < 1000000
  | LTime t => stored_time 6 t
  | _ => True
  end.
