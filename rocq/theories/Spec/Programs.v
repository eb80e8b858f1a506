(** * Specification: programs that use a connection, and what two connections have in common

    A client program is any sequence of calls of the library on one connection, where later calls may
    depend on the results of earlier ones. *)
From Coq Require Import List NArith Bool.
From Verif Require Import Model.Base Model.Conn Model.Auth Model.Cmd Model.Col Model.Stmt Model.Extract Model.Session Model.Event
  Model.Stream Spec.Framing.
Import ListNotations.
Open Scope N_scope.

(** calling a method of a result set; the program goes on with the result and the new state *)
Definition call_rs {A} (m : rs_io A) (rs : result_set) : io (A * result_set) := fun c =>
  let '(r, rs', c') := m rs c in (rmap (fun a => (a, rs')) r, c').
(** inspecting the error of a call instead of giving up; after an I/O error the connection is not used again *)
Definition attempt {A} (m : io A) : io (res A) := fun c =>
  match m c with
  | (Ok a, c') => (Ok (Ok a), c')
  | (Err EIO, c') => (Err EIO, c')
  | (Err e, c') => (Ok (Err e), c')
  | (Panic p, c') => (Panic p, c')
  | (Loop, c') => (Loop, c')
  end.
(** how rows are handed out: plain or mapped, in one of the two protocols *)
Inductive row_source : forall {A}, rs_io (option A) -> Prop :=
| src_text : row_source (next_row text_rows)
| src_binary : row_source (next_row binary_rows)
| src_text_map {O} (f : list (option bytes) -> O) : row_source (map_next_row text_rows f)
| src_binary_map {O} (f : list binary_value -> O) : row_source (map_next_row binary_rows f).

Inductive program (sha1 sha256 : bytes -> bytes) (crc : bytes -> N) (checks : bool) : forall {A}, io A -> Prop :=
(* the program's own steps: they return, fail or panic *)
| pg_ret {A} (a : res A) : a <> Loop -> program sha1 sha256 crc checks (ilift a)
| pg_bind {A B} (m : io A) (f : A -> io B) : program sha1 sha256 crc checks m ->
    (forall a, program sha1 sha256 crc checks (f a)) -> program sha1 sha256 crc checks (ibind m f)
| pg_attempt {A} (m : io A) : program sha1 sha256 crc checks m -> program sha1 sha256 crc checks (attempt m)
(* messages *)
| pg_recv : program sha1 sha256 crc checks recv_msg
| pg_send msg reset : program sha1 sha256 crc checks (send_msg checks msg reset)
(* login and commands *)
| pg_handshake opts : program sha1 sha256 crc checks (handshake sha1 sha256 checks opts)
| pg_quit : program sha1 sha256 crc checks (conn_quit checks)
| pg_init_db db : program sha1 sha256 crc checks (conn_init_db checks db)
| pg_create_db db : program sha1 sha256 crc checks (conn_create_db checks db)
| pg_drop_db db : program sha1 sha256 crc checks (conn_drop_db checks db)
| pg_refresh n : program sha1 sha256 crc checks (conn_refresh checks n)
| pg_kill n : program sha1 sha256 crc checks (conn_process_kill checks n)
| pg_reset : program sha1 sha256 crc checks (conn_reset_connection checks)
| pg_register n : program sha1 sha256 crc checks (conn_register_slave checks n)
| pg_fields table wild : program sha1 sha256 crc checks (conn_field_list checks table wild)
| pg_statistics : program sha1 sha256 crc checks (conn_statistics checks)
| pg_debug : program sha1 sha256 crc checks (conn_debug checks)
| pg_ping : program sha1 sha256 crc checks (conn_ping checks)
| pg_multi b : program sha1 sha256 crc checks (conn_set_multi_stmts checks b)
| pg_processes : program sha1 sha256 crc checks (conn_process_info checks)
| pg_change_user user pw db attrs : program sha1 sha256 crc checks (conn_change_user sha1 sha256 checks user pw db attrs)
| pg_files : program sha1 sha256 crc checks (conn_binlog_files checks)
| pg_get_var {V} (from : option bytes -> res V) name global : (forall v, from v <> Loop) ->
    program sha1 sha256 crc checks (conn_get_var checks from name global)
| pg_set_var name v global : program sha1 sha256 crc checks (conn_set_var checks name v global)
| pg_get_user_var {V} (from : option bytes -> res V) name : (forall v, from v <> Loop) ->
    program sha1 sha256 crc checks (conn_get_user_var checks from name)
| pg_set_user_var name v : program sha1 sha256 crc checks (conn_set_user_var checks name v)
(* queries and statements *)
| pg_exec sql : program sha1 sha256 crc checks (query_exec checks sql)
| pg_qry sql : program sha1 sha256 crc checks (query_qry checks sql)
| pg_prepare sql : program sha1 sha256 crc checks (stmt_prepare checks sql)
| pg_stmt_exec ps params : program sha1 sha256 crc checks (stmt_exec checks ps params)
| pg_stmt_exec_close ps params : program sha1 sha256 crc checks (stmt_exec_close checks ps params)
| pg_stmt_qry ps params : program sha1 sha256 crc checks (stmt_qry checks ps params)
| pg_stmt_close ps : program sha1 sha256 crc checks (stmt_close checks ps)
(* result sets *)
| pg_next {A} (next : rs_io (option A)) rs : row_source next -> program sha1 sha256 crc checks (call_rs next rs)
| pg_all {A} (next : rs_io (option A)) rs : row_source next -> program sha1 sha256 crc checks (call_rs (rs_all next) rs)
| pg_first {A} (next : rs_io (option A)) rs : row_source next -> program sha1 sha256 crc checks (call_rs (rs_first next) rs)
| pg_first_or_none {A} (next : rs_io (option A)) rs : row_source next ->
    program sha1 sha256 crc checks (call_rs (rs_first_or_none next) rs)
| pg_count {A} (next : rs_io (option A)) rs : row_source next -> program sha1 sha256 crc checks (call_rs (rs_count next) rs)
| pg_rs_close rs : program sha1 sha256 crc checks (call_rs (rs_close checks) rs)
(* binlog streams *)
| pg_stream uuid id o : program sha1 sha256 crc checks (request_stream checks uuid id o)
| pg_event s : program sha1 sha256 crc checks (next_event crc s).

(** the same but for the transport: settings, packet number and what was sent; both transports accept
    what is written, in whatever portions *)
Definition alike (c1 c2 : conn) : Prop :=
  c_cap c2 = c_cap c1 /\ c_status c2 = c_status c1 /\ c_pkt_nr c2 = c_pkt_nr c1 /\ c_out c2 = c_out c1 /\
  accepting (c_ws c1) /\ accepting (c_ws c2).
(** the bytes that arrive, in whatever portions and after whatever waiting *)
Definition arriving (c : conn) : bytes := delivered (c_rd c).
