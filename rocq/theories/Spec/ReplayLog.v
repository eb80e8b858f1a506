(** * Specification: what a binlog says about a database

    The changes that the row events of a log stand for, and databases that agree with them.  Row images are full
    (binlog_row_image=FULL, the default), the values are those whose literals are right (C40), names have no
    backtick (C41), and the rows always satisfy the key of the table. *)
From Coq Require Import List NArith Bool.
From Verif Require Import Model.Base Model.Fmt Model.Col Model.Row Model.Rows Model.Event Spec.SqlSpec Spec.Replay Spec.DmlSpec.
Import ListNotations.
Open Scope N_scope.

(** rows of the right types that the key columns tell apart *)
Definition sound (defs : list column_def) (sch : schema) (rows : list row) : Prop :=
  Forall (typed sch) rows /\ key_holds (map is_key defs) rows.
(** the table has the columns that the server reports *)
Definition describes (defs : list column_def) (sch : schema) : Prop :=
  map fst sch = map cd_name defs /\ NoDup (map cd_name defs) /\ Forall (fun d => plain_name (cd_name d)) defs.

Section Log.
  Variables fmt_f32 fmt_f64 : N -> bytes.
  Variable esc : bool.
  Notation means_row defs := (row_means fmt_f32 fmt_f64 esc defs).
  (** the rows of an event, with full images, are these changes *)
  Inductive says_inserts (defs : list column_def) (r : rows_v2) : list change -> Prop :=
  | si xss : first_present (length defs) (length defs) (r_present_bitmap r) -> Forall2 (means_row defs) (r_rows r) xss ->
      says_inserts defs r (map CInsert xss).
  Inductive says_deletes (defs : list column_def) (r : rows_v2) : list change -> Prop :=
  | sd xss : first_present (length defs) (length defs) (r_present_bitmap r) -> Forall2 (means_row defs) (r_rows r) xss ->
      says_deletes defs r (map CDelete xss).
  Inductive says_updates (defs : list column_def) (u : update_rows_v2) : list change -> Prop :=
  | su xss : first_present (length defs) (length defs) (u_before_present_bitmap u) ->
      first_present (length defs) (length defs) (u_after_present_bitmap u) ->
      Forall2 (fun v x => means_row defs (fst v) (fst x) /\ means_row defs (snd v) (snd x)) (u_rows u) xss ->
      says_updates defs u (map (fun x => CUpdate (fst x) (snd x)) xss).

  (** the filter, and the columns of the tables *)
  Variable passes : table_map -> bool.
  Variable defs_of : bytes -> bytes -> list column_def.
  (** a row event of the table [tm] that can be replayed: deletes need a key column, updates one with both flags (C44) *)
  Definition says (tm : table_map) (c : row_change) (d : rows_data_v2) (cs : list change) : Prop :=
    let defs := defs_of (tm_schema_name tm) (tm_table_name tm) in
    match c with
    | RInsert => defs <> [] /\ exists r, rows_of d (tm_col_metas tm) = Ok r /\ says_inserts defs r cs
    | RDelete => existsb is_key defs = true /\ exists r, rows_of d (tm_col_metas tm) = Ok r /\ says_deletes defs r cs
    | RUpdate => existsb keyed defs = true /\ exists u, update_rows_of d (tm_col_metas tm) = Ok u /\ says_updates defs u cs
    end.
  (** the items turn the first database into the second; [recent]: what came before.  Row events of tables that do not
      pass are left out, and so are those without a table map. *)
  Inductive logged_history : list item -> list item -> database -> database -> Prop :=
  | lh_nil recent d : logged_history recent [] d d
  | lh_rows recent c id rd pos items tm cs d1 sch rows rows' d2 d' :
      let db := tm_schema_name tm in let tbl := tm_table_name tm in let defs := defs_of db tbl in
      latest recent id = Some tm -> passes tm = true -> says tm c rd cs ->
      plain_name db -> plain_name tbl -> describes defs sch -> Forall (fun t => is_table db tbl t = false) d1 ->
      history (sound defs sch) rows cs rows' ->
      logged_history (IRows c id rd pos :: recent) items (d1 ++ mk_table db tbl sch rows' :: d2) d' ->
      logged_history recent (IRows c id rd pos :: items) (d1 ++ mk_table db tbl sch rows :: d2) d'
  | lh_left_out recent c id rd pos items d d' :
      match latest recent id with Some tm => passes tm = false | None => True end ->
      logged_history (IRows c id rd pos :: recent) items d d' -> logged_history recent (IRows c id rd pos :: items) d d'
  | lh_other recent it items d d' : (forall c id rd pos, it <> IRows c id rd pos) ->
      logged_history (it :: recent) items d d' -> logged_history recent (it :: items) d d'.
End Log.
