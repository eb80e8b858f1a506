(** * Specification: the client's side of a conversation

    A server sees the client's bytes as messages.  A message is either a question (a
    command: it opens an exchange, so that its packets are numbered from 0) or an answer
    to what the server just sent (its packets are numbered on from the server's).  This
    file says which questions and answers an application's calls stand for. *)
From Coq Require Import Strings.String.
From Coq Require Import List NArith ZArith Bool.
From Verif Require Import Model.Base Model.Conn Model.Packet Model.Auth Model.Cmd Model.Col Model.Stmt Model.Extract Model.Session
  Model.Event Model.Stream Spec.Wire Spec.Framing Spec.Packets Spec.AuthSpec Spec.Commands Spec.Execute Spec.StreamSpec Spec.Programs.
Import ListNotations.
Open Scope N_scope.

(** ** What is said *)
Inductive question := QRequest (rq : request) | QExecute (id : N) (args : list arg).
Inductive utterance := Asked (q : question) | Replied (msg : bytes).

(** the command byte, from the protocol documentation *)
Definition question_code (q : question) : byte :=
  match q with
  | QExecute _ _ => x17
  | QRequest rq =>
    match rq with
    | RqQuit => x01 | RqInitDb _ => x02 | RqQuery _ => x03 | RqFieldList _ _ => x04 | RqCreateDb _ => x05 | RqDropDb _ => x06
    | RqRefresh _ => x07 | RqStatistics => x09 | RqProcessInfo => x0a | RqProcessKill _ => x0c | RqDebug => x0d | RqPing => x0e
    | RqChangeUser _ _ _ _ _ _ => x11 | RqBinlogDump _ _ _ _ => x12 | RqTableDump _ _ => x13 | RqRegisterSlave _ _ _ _ _ _ _ => x15
    | RqStmtPrepare _ => x16 | RqStmtClose _ => x19 | RqStmtReset _ => x1a | RqSetOption _ => x1b | RqStmtFetch _ _ => x1c
    | RqBinlogDumpGtid _ _ _ _ _ => x1e | RqResetConnection => x1f
    end
  end.
(** a question the protocol can express: numbers in range, no NUL byte in names that end
    with one, strings and sets that fit their length fields *)
Definition question_ok (q : question) : Prop :=
  match q with
  | QExecute _ args => Forall arg_ok args
  | QRequest (RqFieldList table _) => no_nul table
  | QRequest (RqRefresh flags) => flags < 2 ^ 8
  | QRequest (RqProcessKill id) => id < 2 ^ 32
  | QRequest (RqChangeUser user _ db _ _ attrs) => no_nul user /\ no_nul db /\
      match attrs with
      | Some l => Forall attr_ok (map (fun '(k, v) => mk_attr k v) l) /\ str_ok (attrs_wire (map (fun '(k, v) => mk_attr k v) l))
      | None => True
      end
  | QRequest (RqBinlogDump pos _ id _) => pos < 2 ^ 32 /\ id < 2 ^ 32
  | QRequest (RqBinlogDumpGtid _ id file pos sids) => id < 2 ^ 32 /\ N.of_nat (length file) < 2 ^ 32 /\ pos < 2 ^ 64 /\
      gtid_set_ok sids /\ gtid_set_size sids < 2 ^ 32
  | QRequest (RqRegisterSlave id _ _ _ _ _ master) => id < 2 ^ 32 /\ master < 2 ^ 32
  | QRequest _ => True
  end.
(** [msg] puts question [q]: it is that command, and the server reads it so *)
Definition puts (cap : N) (q : question) (msg : bytes) : Prop :=
  (exists rest, msg = question_code q :: rest) /\
  (question_ok q ->
   match q with
   | QRequest rq => server_request cap msg = Some rq
   | QExecute id args => server_execute (length args) msg = Some (mk_ex id 0 1 (map arg_value args))
   end).

(** the packets [w] of an utterance; [last_heard] is the number of the server's packet that
    came directly before, if one did *)
Definition utters (cap : N) (last_heard : option byte) (u : utterance) (w : bytes) : Prop :=
  exists seqs msg, message_wire seqs msg w /\
    match u with
    | Asked q => consecutive 0 seqs /\ puts cap q msg
    | Replied m => msg = m /\ exists b, last_heard = Some b /\ consecutive (next_seq b) seqs
    end.
(** a conversation: what was heard, what was uttered, and as which bytes *)
Inductive dialogue (cap : N) (st : option byte) : bytes -> list utterance -> bytes -> option byte -> Prop :=
| dg_start : dialogue cap st [] [] [] st
| dg_hears h us s st' seqs msg w : dialogue cap st h us s st' -> message_wire seqs msg w ->
    dialogue cap st (h ++ w) us s (Some (last seqs x00))
| dg_utters h us s st' u w : dialogue cap st h us s st' -> utters cap st' u w ->
    dialogue cap st h (us ++ [u]) (s ++ w) None.

(** ** What calls stand for *)
(** an answer to a request to authenticate proves, to some nonce, that the password is
    known, by one of the two methods; or it is empty *)
Definition auth_answer (sha1 sha256 : bytes -> bytes) (pw msg : bytes) : Prop :=
  msg = [] \/ (exists nonce, native_accepts sha1 (sha1 (sha1 pw)) nonce msg) \/
  (exists nonce, sha2_accepts sha256 (sha256 (sha256 pw)) nonce msg).

(** the calls of the library on a connection that is logged in *)
Inductive api : Type -> Type :=
| CQuit : api unit
| CInitDb (db : bytes) : api unit
| CCreateDb (db : bytes) : api unit
| CDropDb (db : bytes) : api unit
| CRefresh (n : N) : api unit
| CKill (n : N) : api unit
| CReset : api unit
| CRegister (n : N) : api unit
| CFields (table wild : bytes) : api (list column_def)
| CStatistics : api bytes
| CDebug : api unit
| CPing : api unit
| CMulti (b : bool) : api unit
| CProcesses : api result_set
| CChangeUser (user pw db : bytes) (attrs : list connect_attr) : api unit
| CFiles : api (list (bytes * N))
| CGetVar {V} (from : option bytes -> res V) (name : bytes) (global : bool) : api (option V)
| CSetVar (name : bytes) (v : arg) (global : bool) : api unit
| CGetUserVar {V} (from : option bytes -> res V) (name : bytes) : api (option V)
| CSetUserVar (name : bytes) (v : arg) : api unit
| CExec (sql : bytes) : api unit
| CQry (sql : bytes) : api result_set
| CPrepare (sql : bytes) : api prepared_stmt
| CStmtExec (ps : prepared_stmt) (args : list arg) : api unit
| CStmtExecClose (ps : prepared_stmt) (args : list arg) : api unit
| CStmtQry (ps : prepared_stmt) (args : list arg) : api result_set
| CStmtClose (ps : prepared_stmt) : api unit
| CNext {A} (next : rs_io (option A)) (rs : result_set) : row_source next -> api (option A * result_set)
| CAll {A} (next : rs_io (option A)) (rs : result_set) : row_source next -> api (list A * result_set)
| CFirst {A} (next : rs_io (option A)) (rs : result_set) : row_source next -> api (A * result_set)
| CFirstOrNone {A} (next : rs_io (option A)) (rs : result_set) : row_source next -> api (option A * result_set)
| CCount {A} (next : rs_io (option A)) (rs : result_set) : row_source next -> api (N * result_set)
| CRsClose (rs : result_set) : api (unit * result_set)
| CStream (uuid : bytes) (id : N) (o : binlog_options) : api binlog_stream
| CEvent (s : binlog_stream) : api (option event).

(** an application: calls, its own steps, and what it makes of results and errors *)
Inductive app : Type -> Type :=
| ADone {A} (r : res A) : app A
| ACall {A} (a : api A) : app A
| AThen {A B} (m : app A) (f : A -> app B) : app B
| ATry {A} (m : app A) : app (res A).

Section Meaning.
  Variable sha1 sha256 : bytes -> bytes.
  Variable cap : N.

  Definition ask1 (rq : request) : list utterance := [Asked (QRequest rq)].
  (** a variable is set by a prepared statement, which the server numbers *)
  Definition set_by (sql : bytes) (v : arg) (id : N) : list utterance :=
    [Asked (QRequest (RqStmtPrepare sql)); Asked (QExecute id [v]); Asked (QRequest (RqStmtClose id))].
  Definition global_variable (name : string) : list utterance :=
    ask1 (RqQuery (str "SHOW GLOBAL VARIABLES LIKE '" ++ str name ++ str "'")).
  (** a statement number is four bytes long *)
  Definition number_of (ps : prepared_stmt) : N := ps_stmt_id ps mod 2 ^ 32.

  (** what a call that succeeds has said, in this order *)
  Definition said_by {A} (a : api A) (us : list utterance) : Prop :=
    match a with
    | CQuit => us = ask1 RqQuit
    | CInitDb db => us = ask1 (RqInitDb db)
    | CCreateDb db => us = ask1 (RqCreateDb db)
    | CDropDb db => us = ask1 (RqDropDb db)
    | CRefresh n => us = ask1 (RqRefresh n)
    | CKill n => us = ask1 (RqProcessKill n)
    | CReset => us = ask1 RqResetConnection
    | CRegister n => us = ask1 (RqRegisterSlave n [] [] [] 0 0 0)
    | CFields table wild => us = ask1 (RqFieldList table wild)
    | CStatistics => us = ask1 RqStatistics
    | CDebug => us = ask1 RqDebug
    | CPing => us = ask1 RqPing
    (* the code sends the opposite of what it is asked, see C16 *)
    | CMulti b => us = ask1 (RqSetOption (negb b))
    | CProcesses => us = ask1 RqProcessInfo
    | CChangeUser user pw db attrs => exists answers, Forall (auth_answer sha1 sha256 pw) answers /\
        us = ask1 (RqChangeUser user [] db 33
               (if cap_plugin_auth cap then Some (str "mysql_native_password") else None)
               (if cap_connect_attrs cap then Some (map (fun a => (at_key a, at_value a)) attrs) else None)) ++ map Replied answers
    | CFiles => us = ask1 (RqQuery (str "SHOW MASTER LOGS"))
    | CGetVar _ name global => us = ask1 (RqQuery (str (if global then "SHOW GLOBAL VARIABLES LIKE '" else "SHOW VARIABLES LIKE '") ++ name ++ str "'"))
    | CSetVar name v global => exists id, us = set_by (str (if global then "SET @@GLOBAL." else "SET @@") ++ name ++ str " = ?") v id
    | CGetUserVar _ name => us = ask1 (RqQuery (str "SELECT @" ++ name))
    | CSetUserVar name v => exists id, us = set_by (str "SET @" ++ name ++ str " = ?") v id
    | CExec sql => us = ask1 (RqQuery sql)
    | CQry sql => us = ask1 (RqQuery sql)
    | CPrepare sql => us = ask1 (RqStmtPrepare sql)
    | CStmtExec ps args => us = [Asked (QExecute (number_of ps) args)]
    | CStmtExecClose ps args => us = [Asked (QExecute (number_of ps) args); Asked (QRequest (RqStmtClose (number_of ps)))]
    | CStmtQry ps args => us = [Asked (QExecute (number_of ps) args)]
    | CStmtClose ps => us = ask1 (RqStmtClose (number_of ps))
    | CNext _ _ _ | CAll _ _ _ | CFirst _ _ _ | CFirstOrNone _ _ _ | CCount _ _ _ => us = []
    | CRsClose rs => us = match rs_stmt_id rs with Some id => ask1 (RqStmtClose (id mod 2 ^ 32)) | None => [] end
    | CStream uuid id o =>
        let slave := if bo_server_id o =? 0 then id else bo_server_id o in
        exists (id1 id2 id3 : N) (algorithm : bytes) (master : N) (gtids_on : bool), us =
          global_variable "SERVER_ID" ++
          set_by (str "SET @MASTER_HEARTBEAT_PERIOD = ?") (AU64 (bo_heartbeat o mod 2 ^ 64)) id1 ++
          global_variable "BINLOG_CHECKSUM" ++
          set_by (str "SET @MASTER_BINLOG_CHECKSUM = ?") (AString algorithm) id2 ++
          global_variable "GTID_MODE" ++
          global_variable "SERVER_UUID" ++
          set_by (str "SET @SLAVE_UUID = ?") (AString uuid) id3 ++
          ask1 (RqRegisterSlave slave [] [] [] 0 0 master) ++
          ask1 (if gtids_on then expected_dump true slave o else expected_dump false slave (bo_set_pos (bo_pos o mod 2 ^ 32) o))
    | CEvent _ => us = []
    end.
  (** a call that fails has said a beginning of that *)
  Definition begins (F : list utterance -> Prop) (us : list utterance) : Prop := exists more, F (us ++ more).
  (** the same for an application *)
  Fixpoint app_said {A} (m : app A) (us : list utterance) : Prop :=
    match m with
    | ADone _ => us = []
    | ACall a => said_by a us
    | AThen m f => exists a u1 u2, app_said m u1 /\ app_said (f a) u2 /\ us = u1 ++ u2
    | ATry m => app_said m us \/ app_begins m us
    end
  with app_begins {A} (m : app A) (us : list utterance) : Prop :=
    match m with
    | ADone _ => us = []
    | ACall a => begins (said_by a) us
    | AThen m f => app_begins m us \/ exists a u1 u2, app_said m u1 /\ app_begins (f a) u2 /\ us = u1 ++ u2
    | ATry m => app_begins m us
    end.
  (** logging in: one login packet, as the answer to the greeting, then answers to
      requests to authenticate *)
  Definition login_said (user pw db : bytes) (us : list utterance) : Prop :=
    exists login plugin resp answers, us = Replied login :: map Replied answers /\ Forall (auth_answer sha1 sha256 pw) answers /\
      auth_answer sha1 sha256 pw resp /\ (plugin = str "mysql_native_password" \/ plugin = str "caching_sha2_password") /\
      (no_nul user -> no_nul db -> server_login login = Some (mk_login (client_caps db) 0xffffff 33 user resp
        (match db with [] => None | _ => Some db end) (Some plugin) None, [])).

  (** running them *)
  Variable crc : bytes -> N.
  Variable checks : bool.
  Definition run_api {A} (a : api A) : io A :=
    match a with
    | CQuit => conn_quit checks
    | CInitDb db => conn_init_db checks db
    | CCreateDb db => conn_create_db checks db
    | CDropDb db => conn_drop_db checks db
    | CRefresh n => conn_refresh checks n
    | CKill n => conn_process_kill checks n
    | CReset => conn_reset_connection checks
    | CRegister n => conn_register_slave checks n
    | CFields table wild => conn_field_list checks table wild
    | CStatistics => conn_statistics checks
    | CDebug => conn_debug checks
    | CPing => conn_ping checks
    | CMulti b => conn_set_multi_stmts checks b
    | CProcesses => conn_process_info checks
    | CChangeUser user pw db attrs => conn_change_user sha1 sha256 checks user pw db attrs
    | CFiles => conn_binlog_files checks
    | CGetVar from name global => conn_get_var checks from name global
    | CSetVar name v global => conn_set_var checks name (to_col v) global
    | CGetUserVar from name => conn_get_user_var checks from name
    | CSetUserVar name v => conn_set_user_var checks name (to_col v)
    | CExec sql => query_exec checks sql
    | CQry sql => query_qry checks sql
    | CPrepare sql => stmt_prepare checks sql
    | CStmtExec ps args => stmt_exec checks ps (map to_col args)
    | CStmtExecClose ps args => stmt_exec_close checks ps (map to_col args)
    | CStmtQry ps args => stmt_qry checks ps (map to_col args)
    | CStmtClose ps => stmt_close checks ps
    | CNext next rs _ => call_rs next rs
    | CAll next rs _ => call_rs (rs_all next) rs
    | CFirst next rs _ => call_rs (rs_first next) rs
    | CFirstOrNone next rs _ => call_rs (rs_first_or_none next) rs
    | CCount next rs _ => call_rs (rs_count next) rs
    | CRsClose rs => call_rs (rs_close checks) rs
    | CStream uuid id o => request_stream checks uuid id o
    | CEvent s => next_event crc s
    end.
  Fixpoint run_app {A} (m : app A) : io A :=
    match m with
    | ADone r => ilift r
    | ACall a => run_api a
    | AThen m f => ibind (run_app m) (fun a => run_app (f a))
    | ATry m => attempt (run_app m)
    end.
End Meaning.

(** The run of [m] from [c] is such a conversation; it says [F] if it succeeds, [L] if not.  What it heard are whole messages; if it
    did not fail to read, it took nothing else from the stream.  What it sent are whole
    messages.  The one exception: in a build with overflow checks the packet number of a message of
    4 GB overflows, and the message breaks off. *)
Definition converses {A} (cap : N) (checks : bool) (F L : list utterance -> Prop) (m : io A) (c : conn) : Prop :=
  let '(r, c') := m c in
  exists h us s st cut rest, dialogue cap None h us s st /\ match r with Ok _ => F us | _ => L us end /\
    arriving c = h ++ rest /\ (r <> Err EIO -> arriving c' = rest) /\
    c_out c' = c_out c ++ s ++ cut /\
    (cut = [] \/ checks = true /\ r = Panic PArith /\ exists u w more, L (us ++ [u]) /\ utters cap st u w /\ w = cut ++ more).

(** applications that do not authenticate again *)
Definition api_asks_only {A} (a : api A) : Prop := match a with CChangeUser _ _ _ _ => False | _ => True end.
Fixpoint asks_only {A} (m : app A) : Prop :=
  match m with
  | ADone _ => True
  | ACall a => api_asks_only a
  | AThen m f => asks_only m /\ forall a, asks_only (f a)
  | ATry m => asks_only m
  end.
