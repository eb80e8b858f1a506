(** * Specification: what a peer can do to a client

    The peer sends arbitrary bytes.  The client reads them as messages. *)
From Coq Require Import List NArith Bool.
From Verif Require Import Model.Base Model.Conn Model.Auth Model.Cmd Model.Col Model.Stmt Model.Extract Model.Session Model.Event
  Model.Stream Spec.Framing Spec.Decoders Spec.Catalogue Spec.Programs.
Import ListNotations.
Open Scope N_scope.

(** read as messages, the bytes contain [msg], whose last packet is numbered [nr] *)
Definition arrives (bs msg : bytes) (nr : byte) : Prop :=
  exists earlier w0 seqs w after, messages_wire earlier w0 /\ message_wire (seqs ++ [nr]) msg w /\ bs = w0 ++ w ++ after.
(** from the first connection to the second a number of whole messages was read, and nothing else *)
Definition whole_messages (c c' : conn) : Prop :=
  exists msgs w, messages_wire msgs w /\ arriving c = w ++ arriving c'.
(** whatever arrives, in whatever portions, and whatever becomes of the output: the call returns a value or an
    error, or it panics because of an arriving message that is bad in the given sense *)
Definition panics_only {A} (m : io A) (bad : bytes -> byte -> panic -> Prop) : Prop :=
  forall c, match fst (m c) with
  | Panic w => exists msg nr, arrives (arriving c) msg nr /\ bad msg nr w
  | Loop => False
  | _ => True
  end.
(** the caller's strings are not of an absurd size (or the build does not check for overflow) *)
Definition sendable (checks : bool) (s : bytes) : Prop := checks = false \/ N.of_nat (length s) < 2 ^ 31.

(** calls that no peer can bring down *)
Inductive safe_call (checks : bool) : forall {A}, io A -> Prop :=
| sc_recv : safe_call checks recv_msg
| sc_quit : safe_call checks (conn_quit checks)
| sc_init_db db : sendable checks db -> safe_call checks (conn_init_db checks db)
| sc_create_db db : sendable checks db -> safe_call checks (conn_create_db checks db)
| sc_drop_db db : sendable checks db -> safe_call checks (conn_drop_db checks db)
| sc_refresh n : safe_call checks (conn_refresh checks n)
| sc_kill n : safe_call checks (conn_process_kill checks n)
| sc_reset : safe_call checks (conn_reset_connection checks)
| sc_register n : safe_call checks (conn_register_slave checks n)
| sc_fields table wild : sendable checks (table ++ wild) -> safe_call checks (conn_field_list checks table wild)
| sc_statistics : safe_call checks (conn_statistics checks)
| sc_debug : safe_call checks (conn_debug checks)
| sc_ping : safe_call checks (conn_ping checks)
| sc_multi b : safe_call checks (conn_set_multi_stmts checks b)
| sc_prepare sql : sendable checks sql -> safe_call checks (stmt_prepare checks sql)
| sc_close ps : safe_call checks (stmt_close checks ps)
| sc_rs_close rs : safe_call checks (call_rs (rs_close checks) rs).

(** rows in the text protocol *)
Inductive text_source : forall {A}, rs_io (option A) -> Prop :=
| ts_row : text_source (next_row text_rows)
| ts_map {O} (f : list (option bytes) -> O) : text_source (map_next_row text_rows f).
Inductive binary_source : forall {A}, rs_io (option A) -> Prop :=
| bs_row : binary_source (next_row binary_rows)
| bs_map {O} (f : list binary_value -> O) : binary_source (map_next_row binary_rows f).
(** the ways to read rows from a result set *)
Inductive row_call {A} (next : rs_io (option A)) (rs : result_set) : forall {B}, io B -> Prop :=
| rc_next : row_call next rs (call_rs next rs)
| rc_all : row_call next rs (call_rs (rs_all next) rs)
| rc_first : row_call next rs (call_rs (rs_first next) rs)
| rc_first_or_none : row_call next rs (call_rs (rs_first_or_none next) rs)
| rc_count : row_call next rs (call_rs (rs_count next) rs).

(** statements without a result set *)
Definition params_size (checks : bool) (id : N) (params : list stmt_value) : Prop :=
  checks = false \/ N.of_nat (length (write_stmt_execute id params)) < 2 ^ 31.
Inductive exec_call (checks : bool) : io unit -> Prop :=
| ec_query sql : sendable checks sql -> exec_call checks (query_exec checks sql)
| ec_stmt ps params : params_size checks (ps_stmt_id ps) params -> exec_call checks (stmt_exec checks ps params)
| ec_stmt_close ps params : params_size checks (ps_stmt_id ps) params -> exec_call checks (stmt_exec_close checks ps params)
| ec_set_var name v global : sendable checks name -> (forall id, params_size checks id [v]) ->
    exec_call checks (conn_set_var checks name v global)
| ec_set_user_var name v : sendable checks name -> (forall id, params_size checks id [v]) ->
    exec_call checks (conn_set_user_var checks name v).
Inductive query_call (checks : bool) : forall {A}, io A -> Prop :=
| qc_query sql : sendable checks sql -> query_call checks (query_qry checks sql)
| qc_stmt ps params : params_size checks (ps_stmt_id ps) params -> query_call checks (stmt_qry checks ps params)
| qc_processes : query_call checks (conn_process_info checks)
| qc_files : query_call checks (conn_binlog_files checks)
| qc_get_var {V} (from : option bytes -> res V) name global : sendable checks name -> (forall v, returns (from v)) ->
    query_call checks (conn_get_var checks from name global)
| qc_get_user_var {V} (from : option bytes -> res V) name : sendable checks name -> (forall v, returns (from v)) ->
    query_call checks (conn_get_user_var checks from name).

(** ** Bad messages *)
Definition none_bad (msg : bytes) (nr : byte) (w : panic) : Prop := False.
(** an empty message *)
Definition empty_bad (msg : bytes) (nr : byte) (w : panic) : Prop := msg = [] /\ w = PIndex.
(** an empty message, or NULL for the number of columns *)
Definition header_bad (msg : bytes) (nr : byte) (w : panic) : Prop := (msg = [] \/ msg = [xfb]) /\ w = PIndex.
(** a row that ends inside a DOUBLE *)
Definition row_bad (cts : list column_type) (msg : bytes) (nr : byte) (w : panic) : Prop :=
  w = PArith /\ exists ct tail, In ct cts /\ final_part tail msg /\ binary_value_panics ct tail.
(** a greeting with a short seed, a request to switch the method, an unlucky number *)
Definition login_bad (checks : bool) (msg : bytes) (nr : byte) (w : panic) : Prop :=
  (w = PArith /\ short_auth_data msg) \/ (w = PUnimplemented /\ exists rest, msg = xfe :: rest) \/
  (w = PArith /\ checks = true /\ nr = xfe).
(** more data before any request to switch the method, an unlucky number *)
Definition change_user_bad (checks : bool) (msg : bytes) (nr : byte) (w : panic) : Prop :=
  (w = PUnwrap /\ exists rest, msg = x01 :: rest) \/ (w = PArith /\ checks = true /\ nr = xfe).
(** an event that announces a length smaller than its header (and checksum) *)
Definition event_bad (checksum : bool) (msg : bytes) (nr : byte) (w : panic) : Prop :=
  w = PArith /\ exists ev, msg = x00 :: ev /\ (13 <= length ev)%nat /\ announced_length ev < (if checksum then 23 else 19).

(** the data part of an event *)
Definition event_payload (ev : bytes) : bytes := firstn (N.to_nat (announced_length ev - 19)) (skipn 19 ev).
(** while a stream is requested: a reply without its first byte, a first event too short for a checksum, a
    malformed format description, a message of two gigabytes (it may hold a value that is sent back) *)
Definition stream_bad (checks : bool) (msg : bytes) (nr : byte) (w : panic) : Prop :=
  header_bad msg nr w \/
  (w = PArith /\ exists ev, msg = x00 :: ev /\ (19 <= length ev < 23)%nat) \/
  (exists b ev, msg = b :: ev /\ ((w = PArith /\ announced_length ev < 19) \/ fde_panics (event_payload ev) w)) \/
  (checks = true /\ w = PArith /\ 2 ^ 31 <= N.of_nat (length msg)).
