(** * Specification: statements one after the other, and the results that come back

    A server answers a statement with one result, or with several: a stored procedure returns one for each
    query in it and one for the call, a text of several statements one for each of them. *)
From Coq Require Import List NArith Bool.
From Verif Require Import Model.Base Model.Conn Model.Cmd Model.Col Model.Stmt Model.Extract Model.Session
  Spec.Framing Spec.Session Spec.Commands Spec.Values Spec.Execute Spec.ResultSets Spec.Programs.
Import ListNotations.
Open Scope N_scope.

(** a step of a client: run a statement for its effect or for its rows, as text or prepared; or a simple command *)
Inductive step :=
| Exec (sql : bytes)
| Query (sql : bytes)
| Execute (ps : prepared_stmt) (args : list arg)
| QueryPrepared (ps : prepared_stmt) (args : list arg)
| Command (m : io unit) (rq : request).
(** what the client learns *)
Inductive outcome :=
| Done
| TextRows (rows : list (list (option bytes)))
| BinaryRows (rows : list (list binary_value)).
(** a result sent by the server *)
Inductive result :=
| Completed
| Failed (e : error)
| WithText (defs : list column_def) (rows : list (list (option bytes)))
| WithBinary (defs : list column_def) (rows : list (list binary_value)).

(** the calls of a client *)
Definition all_rows {A} (next : rs_io (option A)) (rs : result_set) : io (list A) := on_rs (rs_all next) rs.
Definition take (checks : bool) (s : step) : io outcome :=
  match s with
  | Exec sql => _ <~ query_exec checks sql ;; iret Done
  | Query sql => rs <~ query_qry checks sql ;; rows <~ all_rows (next_row text_rows) rs ;; iret (TextRows rows)
  | Execute ps args => _ <~ stmt_exec checks ps (map to_col args) ;; iret Done
  | QueryPrepared ps args => rs <~ stmt_qry checks ps (map to_col args) ;; rows <~ all_rows (next_row binary_rows) rs ;; iret (BinaryRows rows)
  | Command m _ => _ <~ m ;; iret Done
  end.
(** one step after the other; an error the server reports does not stop the client *)
Fixpoint script (checks : bool) (steps : list step) : io (list (res outcome)) :=
  match steps with
  | [] => iret []
  | s :: steps => o <~ attempt (take checks s) ;; os <~ script checks steps ;; iret (o :: os)
  end.
(** what a step asks the server *)
Definition request_of (cap : N) (s : step) : bytes -> Prop :=
  match s with
  | Exec sql | Query sql => asks cap (RqQuery sql)
  | Execute ps args | QueryPrepared ps args => executes (ps_stmt_id ps) (map arg_value args)
  | Command _ rq => asks cap rq
  end.
Definition step_ok (checks : bool) (s : step) : Prop :=
  match s with
  | Exec sql | Query sql => sendable checks sql
  | Execute ps args | QueryPrepared ps args => ps_stmt_id ps < 2 ^ 32 /\ Forall arg_ok args /\
      sendable checks (write_stmt_execute (ps_stmt_id ps) (map to_col args))
  | Command m rq => simple_command checks m rq
  end.

(** the messages of a result *)
Inductive result_wire (cap : N) : result -> list bytes -> Prop :=
| rw_ok m : ok_message cap 0 m -> result_wire cap Completed [m]
| rw_err m e : err_message cap m e -> result_wire cap (Failed e) [m]
| rw_text defs hd rows ms last : defs_ok defs -> heading cap defs hd -> text_rows_wire defs rows ms -> last_message cap last ->
    result_wire cap (WithText defs rows) (hd ++ ms ++ [last])
| rw_binary defs hd rows ms last : defs_ok defs -> heading cap defs hd -> binary_rows_wire defs rows ms -> last_message cap last ->
    result_wire cap (WithBinary defs rows) (hd ++ ms ++ [last]).
Inductive results_wire (cap : N) : list result -> list bytes -> Prop :=
| rsw_nil : results_wire cap [] []
| rsw_cons r rs ms ms' : result_wire cap r ms -> results_wire cap rs ms' -> results_wire cap (r :: rs) (ms ++ ms').

(** what a step should report of a result it can take *)
Inductive reports : step -> result -> res outcome -> Prop :=
| rp_failed s e : reports s (Failed e) (Err e)
| rp_exec sql : reports (Exec sql) Completed (Ok Done)
| rp_execute ps args : reports (Execute ps args) Completed (Ok Done)
| rp_command m rq : reports (Command m rq) Completed (Ok Done)
| rp_none sql : reports (Query sql) Completed (Ok (TextRows []))
| rp_none_prepared ps args : reports (QueryPrepared ps args) Completed (Ok (BinaryRows []))
| rp_rows sql defs rows : reports (Query sql) (WithText defs rows) (Ok (TextRows rows))
| rp_rows_prepared ps args defs rows : reports (QueryPrepared ps args) (WithBinary defs rows) (Ok (BinaryRows rows)).
(** step by step *)
Inductive all_report : list step -> list result -> list (res outcome) -> Prop :=
| ar_nil : all_report [] [] []
| ar_cons s r o ss rs os : reports s r o -> all_report ss rs os -> all_report (s :: ss) (r :: rs) (o :: os).
