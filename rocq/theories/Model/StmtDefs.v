(** * Model of the column lists of mybin-core/src/cmd/stmt_prepare.rs *)
From Verif Require Import Model.Base Model.Col.
Open Scope N_scope.

(** stmt_prepare.rs:77-84 (StmtPrepareColDefs) and 91-98 (StmtPrepareParamDefs), which are the same.  A count so large that
    [Vec::with_capacity] gives up is not modelled. *)
Definition read_prepare_defs (cnt : nat) : parser (list column_def) := prepeat cnt (read_column_def false).
