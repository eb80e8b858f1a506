(** * Independent specification: row images with any set of columns

    A row event says with a bitmap which columns of the table its rows hold.  A decoded row has
    an entry for every column of the table, with a NULL for those that are not in the image. *)
From Coq Require Import Strings.String.
From Coq Require Import List NArith ZArith Arith Bool.
From Verif Require Import Model.Base Model.Col Model.Row Model.Cmd Spec.BitmapSpec Spec.SqlSpec Spec.JsonSpec.
Import ListNotations.

(** the elements of [l] whose bit is set, the first of them having bit [i] *)
Fixpoint present_from {A} (bitmap : bytes) (i : nat) (l : list A) : list A :=
  match l with
  | [] => []
  | a :: l => if bit bitmap i then a :: present_from bitmap (S i) l else present_from bitmap (S i) l
  end.
Definition present {A} (bitmap : bytes) (l : list A) : list A := present_from bitmap 0 l.

(** columns that are absent are NULL in the row *)
Definition absent_null (bitmap : bytes) (row : list binlog_value) : Prop :=
  forall i v, nth_error row i = Some v -> bit bitmap i = false -> v = LNull.
(** some column is in the image although an earlier one is not *)
Definition gap (bitmap : bytes) (n : nat) : Prop :=
  exists i j, (i < j < n)%nat /\ bit bitmap i = false /\ bit bitmap j = true.

(** two SQL values that can be written the same way: they are equal unless one of them is a
    number given by its text *)
Definition same_text (x y : sql_value) : Prop := exists ts, value_tokens x ts /\ value_tokens y ts.
(** for the columns that are mentioned, the name can be quoted with backticks as it is, and the
    values are written the same *)
Inductive agree (mentioned : column_def -> bool) : list column_def -> list sql_value -> list sql_value -> Prop :=
| ag_nil : agree mentioned [] [] []
| ag_cons d x y ds xs ys : (mentioned d = true -> plain_name (cd_name d) /\ same_text x y) ->
    agree mentioned ds xs ys -> agree mentioned (d :: ds) (x :: xs) (y :: ys).
Definition any_column (_ : column_def) : bool := true.

(** the values [vs] of the columns [ds] are the SQL values [xs], expressible or not *)
Inductive row_logged (fmt_f32 fmt_f64 : N -> bytes) : list column_def -> list binlog_value -> list sql_value -> Prop :=
| rl_nil : row_logged fmt_f32 fmt_f64 [] [] []
| rl_cons d v x ds vs xs : logged fmt_f32 fmt_f64 (is_unsigned d) v x -> row_logged fmt_f32 fmt_f64 ds vs xs ->
    row_logged fmt_f32 fmt_f64 (d :: ds) (v :: vs) (x :: xs).

(** the values of two rows are the same in JSON, and both are encoded or none *)
Definition same_json (widen : N -> N) (v : binlog_value) (x : sql_value) (v' : binlog_value) (y : sql_value) : Prop :=
  (exists j, json_means widen v x j /\ json_means widen v' y j) /\ ((exists bs, x = VBinary bs) <-> (exists bs, y = VBinary bs)).
(** the rows [vs] (which is [xs]) and [vs'] (which is [ys]) of the columns [ds] are the same in JSON *)
Inductive json_agree (widen : N -> N) (fmt_f32 fmt_f64 : N -> bytes) :
  list column_def -> list binlog_value -> list sql_value -> list binlog_value -> list sql_value -> Prop :=
| ja_nil : json_agree widen fmt_f32 fmt_f64 [] [] [] [] []
| ja_cons d v x v' y ds vs xs vs' ys : logged fmt_f32 fmt_f64 (is_unsigned d) v' y -> same_json widen v x v' y ->
    json_agree widen fmt_f32 fmt_f64 ds vs xs vs' ys -> json_agree widen fmt_f32 fmt_f64 (d :: ds) (v :: vs) (x :: xs) (v' :: vs') (y :: ys).
