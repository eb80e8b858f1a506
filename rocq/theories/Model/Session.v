(** * Model of the command phase: mybin-async/src/{resultset.rs, query.rs, stmt.rs, conn.rs} *)
From Coq Require Import Strings.String.
From Verif Require Import Model.Base Model.BytesParser Model.LenEnc Model.Utf8 Model.Flags Model.Packet
  Model.Conn Model.Auth Model.Cmd Model.Col Model.Row Model.Stmt Model.Extract.
Open Scope N_scope.

(** [X::read_from(&mut msg, ..)?] on a received message; what is left of it is dropped *)
Definition parse {A} (p : parser A) (msg : bytes) : io A := ilift (fst (p msg)).
(** [return Err(err.into())] after reading an error packet *)
Definition server_error {A} (msg : bytes) : io A := fun c =>
  (e <~ parse (read_err_packet (c_cap c) true) msg ;; ierr (error_of_err_packet e)) c.

(** ** resultset.rs *)

(** resultset.rs:50-67.  [msg[0]] panics on an empty message.  After a length that is
    no number, the error message is built from [msg[0]] of what follows it. *)
Definition parse_col_cnt_packet (cap : N) (msg : bytes) : res N :=
  match msg with
  | [] => Panic PIndex
  | b :: _ =>
    if b2n b =? 0xff then
      rbind (fst (read_err_packet cap true msg)) (fun err => Err (error_of_err_packet err))
    else if b2n b =? 0x00 then
      rbind (fst (read_ok_packet cap msg)) (fun _ => Ok 0)
    else
      let '(r, rest) := read_len_enc_int msg in
      rbind r (fun lei =>
        match lei_to_u32 lei with
        | Some n => Ok n
        | None => match rest with [] => Panic PIndex | _ => Err EPacket end
        end)
  end.

(** resultset.rs:70-82; the connection is passed separately *)
Record result_set := mk_res {
  rs_col_defs : list column_def; rs_completed : bool; rs_col_types : list column_type;
  rs_stmt_id : option N }.
(** resultset.rs:85-96 *)
Definition rs_empty (stmt_id : option N) : result_set := mk_res [] true [] stmt_id.
(** resultset.rs:98-112 *)
Definition rs_new (col_defs : list column_def) (stmt_id : option N) : result_set :=
  mk_res col_defs false (map cd_type col_defs) stmt_id.
Definition rs_complete (rs : result_set) : result_set :=
  mk_res (rs_col_defs rs) true (rs_col_types rs) (rs_stmt_id rs).

(** resultset.rs:34-39: one message per column definition *)
Fixpoint recv_col_defs (n : nat) : io (list column_def) :=
  match n with
  | O => iret []
  | S n =>
      msg <~ recv_msg ;;
      col_def <~ parse (read_column_def false) msg ;;
      l <~ recv_col_defs n ;;
      iret (col_def :: l)
  end.
(** resultset.rs:40-44: the EOF packet unless deprecated *)
Definition recv_defs_eof : io unit := fun c =>
  (if contains (c_cap c) DEPRECATE_EOF then iret tt
   else (msg <~ recv_msg ;; _ <~ parse (read_eof_packet (c_cap c)) msg ;; iret tt)) c.
(** resultset.rs:20-47; [Vec::with_capacity] of at most 2^32 definitions *)
Definition new_result_set (stmt_id : option N) : io result_set := fun c =>
  (msg <~ recv_msg ;;
   col_cnt <~ ilift (parse_col_cnt_packet (c_cap c) msg) ;;
   if col_cnt =? 0 then iret (rs_empty stmt_id)
   else
     col_defs <~ recv_col_defs (N.to_nat col_cnt) ;;
     _ <~ recv_defs_eof ;;
     iret (rs_new col_defs stmt_id)) c.

(** resultset.rs:229-243, [RowReader] of the two protocols *)
Definition binary_rows (rs : result_set) : parser (list binary_value) := read_binary_row (rs_col_types rs).
Definition text_rows (rs : result_set) : parser (list (option bytes)) :=
  read_text_row (N.of_nat (length (rs_col_defs rs))).

(** resultset.rs:168-208: what is done with a received message.  A parse error of the
    last packet becomes a [PacketError]. *)
Definition next_row_msg {Q} (read_row : result_set -> parser (list Q)) (cap : N) (rs : result_set) (msg : bytes)
  : res (option (list Q)) * result_set :=
  let finished (r : res unit) :=
    match r with
    | Ok _ => (Ok None, rs_complete rs)
    | Err _ => (Err EPacket, rs)
    | Panic p => (Panic p, rs)
    | Loop => (Loop, rs)
    end in
  match msg with
  | [] => (Err EPacket, rs)
  | b :: _ =>
    if (b2n b =? 0xfe) && (blen msg <=? 0xffffff) then
      if contains cap DEPRECATE_EOF
      then finished (rmap (fun _ => tt) (fst (read_ok_packet cap msg)))
      else finished (rmap (fun _ => tt) (fst (read_eof_packet cap msg)))
    else (rmap Some (fst (read_row rs msg)), rs)
  end.

(** a method on [&mut self]: result, new state of the result set, connection *)
Definition rs_io (A : Type) : Type := result_set -> conn -> res A * result_set * conn.

(** resultset.rs:168-208 *)
Definition next_row {Q} (read_row : result_set -> parser (list Q)) : rs_io (option (list Q)) := fun rs c =>
  if rs_completed rs then (Ok None, rs, c)
  else
    match recv_msg c with
    | (Ok msg, c') => let '(r, rs') := next_row_msg read_row (c_cap c) rs msg in (r, rs', c')
    | (Err e, c') => (Err e, rs, c')
    | (Panic p, c') => (Panic p, rs, c')
    | (Loop, c') => (Loop, rs, c')
    end.

(** resultset.rs:302-309: with a row mapper applied *)
Definition map_next_row {Q O} (read_row : result_set -> parser (list Q)) (mapper : list Q -> O) : rs_io (option O) :=
  fun rs c =>
  let '(r, rs', c') := next_row read_row rs c in
  (rmap (option_map mapper) r, rs', c').

(** [while let Some(row) = self.next_row().await?]: [step] accumulates.  Every
    iteration but the last receives a message. *)
Fixpoint while_rows {A B} (fuel : nat) (next : rs_io (option A)) (step : B -> A -> B) (acc : B) : rs_io B :=
  fun rs c =>
  match fuel with
  | O => (Loop, rs, c)
  | S fuel =>
      match next rs c with
      | (Ok (Some row), rs', c') => while_rows fuel next step (step acc row) rs' c'
      | (Ok None, rs', c') => (Ok acc, rs', c')
      | (Err e, rs', c') => (Err e, rs', c')
      | (Panic p, rs', c') => (Panic p, rs', c')
      | (Loop, rs', c') => (Loop, rs', c')
      end
  end.

(** resultset.rs:136-142 and 257-263 *)
Definition rs_all {A} (next : rs_io (option A)) : rs_io (list A) := fun rs c =>
  while_rows (S (sched_len (c_rd c))) next (fun rows row => rows ++ [row]) [] rs c.
(** resultset.rs:150-158 and 271-279 *)
Definition rs_first_or_none {A} (next : rs_io (option A)) : rs_io (option A) := fun rs c =>
  while_rows (S (sched_len (c_rd c))) next
    (fun first row => match first with None => Some row | Some _ => first end) None rs c.
(** resultset.rs:144-148 and 265-269 *)
Definition rs_first {A} (next : rs_io (option A)) : rs_io A := fun rs c =>
  let '(r, rs', c') := rs_first_or_none next rs c in
  (rbind r (fun o => match o with Some row => Ok row | None => Err EEmptyResultSet end), rs', c').
(** resultset.rs:160-166 and 281-287; the counter is a [usize] *)
Definition rs_count {A} (next : rs_io (option A)) : rs_io N := fun rs c =>
  while_rows (S (sched_len (c_rd c))) next (fun cnt _ => cnt + 1) 0 rs c.

(** resultset.rs:215-221: the statement id is taken before the message is sent *)
Definition rs_close (checks : bool) : rs_io unit := fun rs c =>
  match rs_stmt_id rs with
  | Some stmt_id =>
      let rs' := mk_res (rs_col_defs rs) (rs_completed rs) (rs_col_types rs) None in
      let '(r, c') := send_msg checks (write_stmt_close stmt_id) true c in (r, rs', c')
  | None => (Ok tt, rs, c)
  end.

(** ** query.rs and stmt.rs *)

(** query.rs:33-48: every iteration receives a message *)
Fixpoint query_exec_loop (fuel : nat) : io unit :=
  match fuel with
  | O => ilift Loop
  | S fuel =>
      msg <~ recv_msg ;;
      match msg with
      | [] => ipanic PIndex
      | b :: _ =>
        if b2n b =? 0xff then server_error msg
        else if b2n b =? 0x00 then
          fun c => (_ <~ parse (read_ok_packet (c_cap c)) msg ;; iret tt) c
        else query_exec_loop fuel
      end
  end.
(** query.rs:27-49 *)
Definition query_exec (checks : bool) (sql : bytes) : io unit :=
  _ <~ send_msg checks (write_query sql) true ;;
  fun c => query_exec_loop (S (sched_len (c_rd c))) c.
(** query.rs:51-55 *)
Definition query_qry (checks : bool) (sql : bytes) : io result_set :=
  _ <~ send_msg checks (write_query sql) true ;; new_result_set None.

(** stmt.rs:84-92, without the connection *)
Record prepared_stmt := mk_ps {
  ps_stmt_id : N; ps_col_defs : list column_def; ps_param_defs : list column_def; ps_n_warnings : N }.
(** stmt.rs:41-55 and 57-71: definitions followed by EOF, nothing when there are none *)
Definition recv_defs_block (n : N) : io (list column_def) :=
  if n =? 0 then iret []
  else
    defs <~ recv_col_defs (N.to_nat n) ;;
    _ <~ recv_defs_eof ;;
    iret defs.
(** stmt.rs:26-82 *)
Definition stmt_prepare (checks : bool) (sql : bytes) : io prepared_stmt :=
  _ <~ send_msg checks (write_stmt_prepare sql) true ;;
  msg <~ recv_msg ;;
  match msg with
  | [] => ierr (EIncomplete None)
  | b :: _ =>
    if b2n b =? 0xff then server_error msg
    else
      ok <~ parse read_stmt_prepare_ok msg ;;
      param_defs <~ recv_defs_block (spo_n_params ok) ;;
      col_defs <~ recv_defs_block (spo_n_cols ok) ;;
      iret (mk_ps (spo_stmt_id ok) col_defs param_defs (spo_n_warnings ok))
  end.
(** stmt.rs:101-117 *)
Fixpoint stmt_exec_loop (fuel : nat) : io unit :=
  match fuel with
  | O => ilift Loop
  | S fuel =>
      msg <~ recv_msg ;;
      match msg with
      | [] => ipanic PIndex
      | b :: _ =>
        if b2n b =? 0xff then server_error msg
        else if b2n b =? 0x00 then
          fun c => (_ <~ parse (read_ok_packet (c_cap c)) msg ;; iret tt) c
        else stmt_exec_loop fuel
      end
  end.
(** stmt.rs:98-118 *)
Definition stmt_exec (checks : bool) (ps : prepared_stmt) (params : list stmt_value) : io unit :=
  _ <~ send_msg checks (write_stmt_execute (ps_stmt_id ps) params) true ;;
  fun c => stmt_exec_loop (S (sched_len (c_rd c))) c.
(** stmt.rs:137-140 *)
Definition stmt_close (checks : bool) (ps : prepared_stmt) : io unit :=
  send_msg checks (write_stmt_close (ps_stmt_id ps)) true.
(** stmt.rs:120-131: the statement is closed in both cases, an error of [close] is
    dropped (a panic of it is not) *)
Definition stmt_exec_close (checks : bool) (ps : prepared_stmt) (params : list stmt_value) : io unit := fun c =>
  let close (r : res unit) (c : conn) : res unit * conn :=
    match stmt_close checks ps c with
    | (Panic p, c') => (Panic p, c')
    | (Loop, c') => (Loop, c')
    | (_, c') => (r, c')
    end in
  match stmt_exec checks ps params c with
  | (Ok _, c') => close (Ok tt) c'
  | (Err e, c') => close (Err e) c'
  | (Panic p, c') => (Panic p, c')
  | (Loop, c') => (Loop, c')
  end.
(** stmt.rs:150-158 *)
Definition stmt_qry (checks : bool) (ps : prepared_stmt) (params : list stmt_value) : io result_set :=
  _ <~ send_msg checks (write_stmt_execute (ps_stmt_id ps) params) true ;;
  new_result_set (Some (ps_stmt_id ps)).

(** ** The commands of conn.rs *)

(** conn.rs:263-267 and the same lines of the other commands answered by OK or ERR
    (296-300, 310-314, 321-325, 404-408, 415-419, 446-450) *)
Definition recv_com_response : io unit :=
  msg <~ recv_msg ;;
  fun c =>
    (r <~ parse (read_com_response (c_cap c)) msg ;;
     match r with
     | CrOk _ => iret tt
     | CrErr e => ierr (error_of_err_packet e)
     end) c.

(** conn.rs:250-257 *)
Definition conn_quit (checks : bool) : io unit := send_msg checks write_quit true.
(** conn.rs:260-268 *)
Definition conn_init_db (checks : bool) (db : bytes) : io unit :=
  _ <~ send_msg checks (write_init_db db) true ;; recv_com_response.
(** conn.rs:293-301 *)
Definition conn_create_db (checks : bool) (db : bytes) : io unit :=
  _ <~ send_msg checks (write_create_db db) true ;; recv_com_response.
(** conn.rs:307-315 *)
Definition conn_drop_db (checks : bool) (db : bytes) : io unit :=
  _ <~ send_msg checks (write_drop_db db) true ;; recv_com_response.
(** conn.rs:318-326 *)
Definition conn_refresh (checks : bool) (sub_cmd : N) : io unit :=
  _ <~ send_msg checks (write_refresh sub_cmd) true ;; recv_com_response.
(** conn.rs:401-409 *)
Definition conn_process_kill (checks : bool) (conn_id : N) : io unit :=
  _ <~ send_msg checks (write_process_kill conn_id) true ;; recv_com_response.
(** conn.rs:412-420 *)
Definition conn_reset_connection (checks : bool) : io unit :=
  _ <~ send_msg checks write_reset_connection true ;; recv_com_response.
(** cmd/register_slave.rs:22-34 and 36-47 *)
Definition register_slave_anonymous (server_id : N) : register_slave := mk_rs server_id [] [] [] 0 0 0.
Definition register_slave_new (server_id master_id : N) : register_slave := mk_rs server_id [] [] [] 0 0 master_id.
(** conn.rs:443-451 *)
Definition conn_register_slave (checks : bool) (server_id : N) : io unit :=
  _ <~ send_msg checks (write_register_slave (register_slave_anonymous server_id)) true ;; recv_com_response.

(** cmd/field_list.rs:42-70 *)
Inductive field_list_response := FlColDef (d : column_def) | FlErr (p : err_packet) | FlEof (p : eof_packet).
Definition read_field_list_response (cap : N) (sql : bool) : parser field_list_response := fun bs =>
  match bs with
  | [] => (Err (EIncomplete None), bs)
  | b :: _ =>
    (if b2n b =? 0xff then pmap FlErr (read_err_packet cap sql)
     else if b2n b =? 0xfe then pmap FlEof (read_eof_packet cap)
     else pmap FlColDef (read_column_def true)) bs
  end.
(** conn.rs:278-287, the loop *)
Fixpoint field_list_loop (fuel : nat) (acc : list column_def) : io (list column_def) :=
  match fuel with
  | O => ilift Loop
  | S fuel =>
      msg <~ recv_msg ;;
      fun c =>
        (r <~ parse (read_field_list_response (c_cap c) true) msg ;;
         match r with
         | FlErr err => ierr (error_of_err_packet err)
         | FlEof _ => iret acc
         | FlColDef col_def => field_list_loop fuel (acc ++ [col_def])
         end) c
  end.
(** conn.rs:271-288 *)
Definition conn_field_list (checks : bool) (table wildcard : bytes) : io (list column_def) :=
  _ <~ send_msg checks (write_field_list table wildcard) true ;;
  fun c => field_list_loop (S (sched_len (c_rd c))) [] c.

(** conn.rs:329-334 *)
Definition conn_statistics (checks : bool) : io bytes :=
  _ <~ send_msg checks write_statistics true ;;
  msg <~ recv_msg ;;
  ilift (from_utf8 msg).

(** cmd/simple.rs:14-43, ComDebugResponse *)
Inductive debug_response := DbEof (p : eof_packet) | DbErr (p : err_packet).
Definition read_debug_response (cap : N) : parser debug_response := fun bs =>
  match bs with
  | [] => (Err (EIncomplete None), bs)
  | b :: _ =>
    (if b2n b =? 0xfe then pmap DbEof (read_eof_packet cap)
     else if b2n b =? 0xff then pmap DbErr (read_err_packet cap true)
     else pfail EConstraint) bs
  end.
(** conn.rs:337-345 *)
Definition conn_debug (checks : bool) : io unit :=
  _ <~ send_msg checks write_debug true ;;
  msg <~ recv_msg ;;
  fun c =>
    (r <~ parse (read_debug_response (c_cap c)) msg ;;
     match r with
     | DbEof _ => iret tt
     | DbErr err => ierr (error_of_err_packet err)
     end) c.

(** conn.rs:348-354: the answer is read as an OK packet whatever its header says *)
Definition conn_ping (checks : bool) : io unit :=
  _ <~ send_msg checks write_ping true ;;
  msg <~ recv_msg ;;
  fun c => (_ <~ parse (read_ok_packet (c_cap c)) msg ;; iret tt) c.

(** cmd/set_option.rs:32-61 *)
Inductive set_option_response := SoEof (p : eof_packet) | SoErr (p : err_packet).
Definition read_set_option_response (cap : N) : parser set_option_response := fun bs =>
  match bs with
  | [] => (Err (EIncomplete None), bs)
  | b :: _ =>
    (if b2n b =? 0xff then pmap SoErr (read_err_packet cap true)
     else if b2n b =? 0xfe then pmap SoEof (read_eof_packet cap)
     else pfail EConstraint) bs
  end.
(** conn.rs:423-438 *)
Definition conn_set_multi_stmts (checks : bool) (multi_stmts : bool) : io unit :=
  _ <~ send_msg checks (write_set_option multi_stmts) true ;;
  msg <~ recv_msg ;;
  fun c =>
    (r <~ parse (read_set_option_response (c_cap c)) msg ;;
     match r with
     | SoEof _ => fun c =>
         (Ok tt, set_cap c (if multi_stmts then insert (c_cap c) MULTI_STATEMENTS
                            else remove (c_cap c) MULTI_STATEMENTS))
     | SoErr err => ierr (error_of_err_packet err)
     end) c.

(** conn.rs:454-458 *)
Definition conn_process_info (checks : bool) : io result_set :=
  _ <~ send_msg checks write_process_info true ;; new_result_set None.

(** cmd/change_user.rs:84-124 *)
Inductive change_user_response :=
| CuErr (p : err_packet) | CuSwitch (p : auth_switch) | CuOk (p : ok_packet) | CuMore (p : auth_more).
Definition read_change_user_response (cap : N) : parser change_user_response := fun bs =>
  match bs with
  | [] => (Err (EIncomplete None), bs)
  | b :: _ =>
    (if b2n b =? 0xff then pmap CuErr (read_err_packet cap true)
     else if b2n b =? 0x00 then pmap CuOk (read_ok_packet cap)
     else if b2n b =? 0x01 then pmap CuMore read_auth_more
     else if b2n b =? 0xfe then pmap CuSwitch read_auth_switch
     else pfail EConstraint) bs
  end.

Section ChangeUser.
  (** External: the digests of the [crypto] crate *)
  Variable sha1 sha256 : bytes -> bytes.

  (** conn.rs:371-396, the loop; [p] is the plugin chosen by the last switch request *)
  Fixpoint change_user_loop (checks : bool) (password : bytes) (fuel : nat) (p : option auth_plugin) : io unit :=
    match fuel with
    | O => ilift Loop
    | S fuel =>
      msg <~ recv_msg ;;
      fun c =>
        (r <~ parse (read_change_user_response (c_cap c)) msg ;;
         match r with
         | CuOk _ => iret tt
         | CuErr err => ierr (error_of_err_packet err)
         | CuSwitch switch =>
             p0 <~ ilift (new_auth_plugin (sw_plugin switch)) ;;
             let '(r, p1) := gen_init_auth_resp sha1 sha256 p0 password (sw_data switch) in
             resp <~ ilift r ;;
             _ <~ send_msg checks resp false ;;
             change_user_loop checks password fuel (Some p1)
         | CuMore more =>
             match p with
             | None => ipanic PUnwrap
             | Some p0 =>
                 let '(r, p1) := auth_next sha1 sha256 p0 (am_data more) in
                 resp <~ ilift r ;;
                 _ <~ send_msg checks resp false ;;
                 change_user_loop checks password fuel (Some p1)
             end
         end) c
    end.
  (** conn.rs:357-398 *)
  Definition conn_change_user (checks : bool) (username password db_name : bytes) (attrs : list connect_attr) : io unit :=
    fun c =>
    (_ <~ send_msg checks (write_change_user (c_cap c)
            (new_change_user username [] db_name (str "mysql_native_password") attrs)) true ;;
     fun c => change_user_loop checks password (S (sched_len (c_rd c))) None c) c.
End ChangeUser.

(** ** Queries with fixed SQL *)

(** [rs.next_row()] etc. on the value [qry] returned *)
Definition on_rs {A} (m : rs_io A) (rs : result_set) : io A := fun c =>
  let '(r, _, c') := m rs c in (r, c').

(** binlog.rs:261-269, [BinlogFileMapper]; filename and size *)
Definition binlog_file_mapper (row : list (option bytes)) : res (bytes * N) :=
  rbind (get_col (non_null string_from_text) row 0) (fun filename =>
  rbind (get_col (non_null u64_from_text) row 1) (fun size =>
  Ok (filename, size))).
(** conn.rs:468-471: stops at the first row that is not a file *)
Fixpoint binlog_files_loop (fuel : nat) (files : list (bytes * N)) : rs_io (list (bytes * N)) := fun rs c =>
  match fuel with
  | O => (Loop, rs, c)
  | S fuel =>
      match map_next_row text_rows binlog_file_mapper rs c with
      | (Ok (Some (Ok file)), rs', c') => binlog_files_loop fuel (files ++ [file]) rs' c'
      | (Ok (Some (Err e)), rs', c') => (Err e, rs', c')
      | (Ok (Some (Panic p)), rs', c') => (Panic p, rs', c')
      | (Ok (Some Loop), rs', c') => (Loop, rs', c')
      | (Ok None, rs', c') => (Ok files, rs', c')
      | (Err e, rs', c') => (Err e, rs', c')
      | (Panic p, rs', c') => (Panic p, rs', c')
      | (Loop, rs', c') => (Loop, rs', c')
      end
  end.
(** conn.rs:461-473 *)
Definition conn_binlog_files (checks : bool) : io (list (bytes * N)) :=
  rs <~ query_qry checks (str "SHOW MASTER LOGS") ;;
  fun c => on_rs (binlog_files_loop (S (sched_len (c_rd c))) []) rs c.

(** conn.rs:484-488 *)
Definition get_var_sql (name : bytes) (global : bool) : bytes :=
  if global then str "SHOW GLOBAL VARIABLES LIKE '" ++ name ++ str "'"
  else str "SHOW VARIABLES LIKE '" ++ name ++ str "'".
(** conn.rs:479-503; [from_col] is the conversion to the requested type, applied to
    the second column ([VariableMapper], conn.rs:629-644) *)
Definition conn_get_var {V} (checks : bool) (from_col : option bytes -> res V) (name : bytes) (global : bool)
  : io (option V) :=
  rs <~ query_qry checks (get_var_sql name global) ;;
  o <~ on_rs (rs_first_or_none (map_next_row text_rows (fun row => get_col from_col row 1))) rs ;;
  match o with
  | Some var => v <~ ilift var ;; iret (Some v)
  | None => iret None
  end.
(** conn.rs:516-520 *)
Definition set_var_sql (name : bytes) (global : bool) : bytes :=
  if global then str "SET @@GLOBAL." ++ name ++ str " = ?" else str "SET @@" ++ name ++ str " = ?".
(** conn.rs:509-522 *)
Definition conn_set_var (checks : bool) (name : bytes) (value : stmt_value) (global : bool) : io unit :=
  stmt <~ stmt_prepare checks (set_var_sql name global) ;;
  stmt_exec_close checks stmt [value].
(** conn.rs:528-551 *)
Definition conn_get_user_var {V} (checks : bool) (from_col : option bytes -> res V) (name : bytes) : io (option V) :=
  rs <~ query_qry checks (str "SELECT @" ++ name) ;;
  o <~ on_rs (rs_first_or_none (map_next_row text_rows (fun row => get_col from_col row 0))) rs ;;
  match o with
  | Some var => v <~ ilift var ;; iret (Some v)
  | None => iret None
  end.
(** conn.rs:556-566 *)
Definition conn_set_user_var (checks : bool) (name : bytes) (value : stmt_value) : io unit :=
  stmt <~ stmt_prepare checks (str "SET @" ++ name ++ str " = ?") ;;
  stmt_exec_close checks stmt [value].
