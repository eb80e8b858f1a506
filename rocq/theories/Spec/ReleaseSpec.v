(** * What a build without overflow checks and debug assertions has to do with one that has them *)
From Verif Require Import Model.Base Model.Conn Model.Auth Model.Cmd Model.Col Model.Stmt Model.Extract Model.Session Model.Event
  Model.Stream Model.Release Spec.Programs.

(** the call ended in a panic that only a build with checks has: overflow, or a failed [debug_assert!] *)
Definition stopped_by_checks {A} (r : res A) : Prop := r = Panic PArith \/ r = Panic PAssert.
(** [release] is what the same call gives without the checks: the same, except where they stopped it *)
Definition same_result {A} (checked release : res A) : Prop := ~ stopped_by_checks checked -> release = checked.
(** the same for a call that leaves something behind: the rest of the input, or the connection *)
Definition same_without_checks {A S} (checked release : res A * S) : Prop :=
  ~ stopped_by_checks (fst checked) -> release = checked.

(** rows handed out by the two builds: only the binary protocol has arithmetic that can overflow *)
Inductive row_builds : forall {A}, rs_io (option A) -> rs_io (option A) -> Prop :=
| rb_text : row_builds (next_row text_rows) (next_row text_rows)
| rb_binary : row_builds (next_row binary_rows) (next_row binary_rows_rel)
| rb_text_map {O} (f : list (option bytes) -> O) : row_builds (map_next_row text_rows f) (map_next_row text_rows f)
| rb_binary_map {O} (f : list binary_value -> O) :
    row_builds (map_next_row binary_rows f) (map_next_row binary_rows_rel f).

(** one client program, compiled with the checks and without them.  It is any sequence of calls on one connection,
    where later calls may depend on the results of earlier ones, as in Spec/Programs.v. *)
Inductive builds (sha1 sha256 : bytes -> bytes) (crc : bytes -> N) : forall {A}, io A -> io A -> Prop :=
(* the program's own steps, such as decoding the body of an event *)
| bd_own {A} (a b : res A) : same_result a b -> ~ stopped_by_checks b -> builds sha1 sha256 crc (ilift a) (ilift b)
| bd_bind {A B} (m n : io A) (f g : A -> io B) : builds sha1 sha256 crc m n ->
    (forall a, builds sha1 sha256 crc (f a) (g a)) -> builds sha1 sha256 crc (ibind m f) (ibind n g)
| bd_attempt {A} (m n : io A) : builds sha1 sha256 crc m n -> builds sha1 sha256 crc (attempt m) (attempt n)
(* messages *)
| bd_recv : builds sha1 sha256 crc recv_msg recv_msg
| bd_send msg reset : builds sha1 sha256 crc (send_msg true msg reset) (send_msg false msg reset)
(* login and commands *)
| bd_handshake opts : builds sha1 sha256 crc (handshake sha1 sha256 true opts) (handshake_rel sha1 sha256 opts)
| bd_quit : builds sha1 sha256 crc (conn_quit true) (conn_quit false)
| bd_init_db db : builds sha1 sha256 crc (conn_init_db true db) (conn_init_db false db)
| bd_create_db db : builds sha1 sha256 crc (conn_create_db true db) (conn_create_db false db)
| bd_drop_db db : builds sha1 sha256 crc (conn_drop_db true db) (conn_drop_db false db)
| bd_refresh n : builds sha1 sha256 crc (conn_refresh true n) (conn_refresh false n)
| bd_kill n : builds sha1 sha256 crc (conn_process_kill true n) (conn_process_kill false n)
| bd_reset : builds sha1 sha256 crc (conn_reset_connection true) (conn_reset_connection false)
| bd_register n : builds sha1 sha256 crc (conn_register_slave true n) (conn_register_slave false n)
| bd_fields table wild : builds sha1 sha256 crc (conn_field_list true table wild) (conn_field_list false table wild)
| bd_statistics : builds sha1 sha256 crc (conn_statistics true) (conn_statistics false)
| bd_debug : builds sha1 sha256 crc (conn_debug true) (conn_debug false)
| bd_ping : builds sha1 sha256 crc (conn_ping true) (conn_ping false)
| bd_multi b : builds sha1 sha256 crc (conn_set_multi_stmts true b) (conn_set_multi_stmts false b)
| bd_processes : builds sha1 sha256 crc (conn_process_info true) (conn_process_info false)
| bd_change_user user pw db attrs : builds sha1 sha256 crc
    (conn_change_user sha1 sha256 true user pw db attrs) (conn_change_user sha1 sha256 false user pw db attrs)
| bd_files : builds sha1 sha256 crc (conn_binlog_files true) (conn_binlog_files false)
| bd_get_var {V} (from : option bytes -> res V) name global : (forall v, ~ stopped_by_checks (from v)) ->
    builds sha1 sha256 crc (conn_get_var true from name global) (conn_get_var false from name global)
| bd_set_var name v global : builds sha1 sha256 crc (conn_set_var true name v global) (conn_set_var false name v global)
| bd_get_user_var {V} (from : option bytes -> res V) name : (forall v, ~ stopped_by_checks (from v)) ->
    builds sha1 sha256 crc (conn_get_user_var true from name) (conn_get_user_var false from name)
| bd_set_user_var name v : builds sha1 sha256 crc (conn_set_user_var true name v) (conn_set_user_var false name v)
(* queries and statements *)
| bd_exec sql : builds sha1 sha256 crc (query_exec true sql) (query_exec false sql)
| bd_qry sql : builds sha1 sha256 crc (query_qry true sql) (query_qry false sql)
| bd_prepare sql : builds sha1 sha256 crc (stmt_prepare true sql) (stmt_prepare false sql)
| bd_stmt_exec ps params : builds sha1 sha256 crc (stmt_exec true ps params) (stmt_exec false ps params)
| bd_stmt_exec_close ps params : builds sha1 sha256 crc (stmt_exec_close true ps params) (stmt_exec_close false ps params)
| bd_stmt_qry ps params : builds sha1 sha256 crc (stmt_qry true ps params) (stmt_qry false ps params)
| bd_stmt_close ps : builds sha1 sha256 crc (stmt_close true ps) (stmt_close false ps)
(* result sets *)
| bd_next {A} (next next' : rs_io (option A)) rs : row_builds next next' ->
    builds sha1 sha256 crc (call_rs next rs) (call_rs next' rs)
| bd_all {A} (next next' : rs_io (option A)) rs : row_builds next next' ->
    builds sha1 sha256 crc (call_rs (rs_all next) rs) (call_rs (rs_all next') rs)
| bd_first {A} (next next' : rs_io (option A)) rs : row_builds next next' ->
    builds sha1 sha256 crc (call_rs (rs_first next) rs) (call_rs (rs_first next') rs)
| bd_first_or_none {A} (next next' : rs_io (option A)) rs : row_builds next next' ->
    builds sha1 sha256 crc (call_rs (rs_first_or_none next) rs) (call_rs (rs_first_or_none next') rs)
| bd_count {A} (next next' : rs_io (option A)) rs : row_builds next next' ->
    builds sha1 sha256 crc (call_rs (rs_count next) rs) (call_rs (rs_count next') rs)
| bd_rs_close rs : builds sha1 sha256 crc (call_rs (rs_close true) rs) (call_rs (rs_close false) rs)
(* binlog streams *)
| bd_stream uuid id o : builds sha1 sha256 crc (request_stream true uuid id o) (request_stream_rel uuid id o)
| bd_event s : builds sha1 sha256 crc (next_event crc s) (next_event_rel crc s).
