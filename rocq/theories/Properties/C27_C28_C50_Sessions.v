(** C27: result sets.  C28: execution of statements.  C50: the commands of a connection. *)
From Coq Require Import Strings.String.
From Verif Require Import Model.Base Model.Utf8 Model.Packet Model.Conn Model.Auth Model.Cmd Model.Col Model.Row
  Model.Stmt Model.Extract Model.Session
  Spec.Nums Spec.Wire Spec.Packets Spec.Values Spec.Framing Spec.Session Spec.Commands Spec.Execute Spec.ExtractSpec
  Spec.AuthSpec Spec.ResultSets Proofs.CmdProofs Proofs.SessionProofs Proofs.CommandProofs.
Open Scope N_scope.

(** ** C27 *)
(** A query answered by a result set: the request is sent, the definitions are those
    the server sent ... *)
Theorem C27_query : forall cap checks sql defs hd, sendable checks sql -> defs_ok defs -> heading cap defs hd ->
  conversation cap (query_qry checks sql) [asks cap (RqQuery sql)] hd (Ok (rs_new defs None)).
Proof. exact qry_ok. Qed.
Print Assumptions C27_query.

(** ... or by OK: no rows ... *)
Theorem C27_query_empty : forall cap checks sql m, sendable checks sql -> ok_message cap 0 m ->
  exists rs, conversation cap (query_qry checks sql) [asks cap (RqQuery sql)] [m] (Ok rs) /\
    forall c, delivers (next_row text_rows) rs c [] (delivered (c_rd c)).
Proof. exact qry_empty. Qed.
Print Assumptions C27_query_empty.

(** ... or by ERR: the server's error. *)
Theorem C27_query_refused : forall cap checks sql m e, sendable checks sql -> err_message cap m e ->
  conversation cap (query_qry checks sql) [asks cap (RqQuery sql)] [m] (Err e).
Proof. exact qry_err. Qed.
Print Assumptions C27_query_refused.

(** The same for a prepared statement *)
Theorem C27_statement : forall cap checks ps args defs hd, ps_stmt_id ps < 2 ^ 32 -> Forall arg_ok args ->
  sendable checks (write_stmt_execute (ps_stmt_id ps) (map to_col args)) -> defs_ok defs -> heading cap defs hd ->
  conversation cap (stmt_qry checks ps (map to_col args)) [executes (ps_stmt_id ps) (map arg_value args)] hd
    (Ok (rs_new defs (Some (ps_stmt_id ps)))).
Proof. exact stmt_qry_ok. Qed.
Print Assumptions C27_statement.

Theorem C27_statement_empty : forall cap checks ps args m, ps_stmt_id ps < 2 ^ 32 -> Forall arg_ok args ->
  sendable checks (write_stmt_execute (ps_stmt_id ps) (map to_col args)) -> ok_message cap 0 m ->
  exists rs, conversation cap (stmt_qry checks ps (map to_col args)) [executes (ps_stmt_id ps) (map arg_value args)] [m] (Ok rs) /\
    forall c, delivers (next_row binary_rows) rs c [] (delivered (c_rd c)).
Proof. exact stmt_qry_empty. Qed.
Print Assumptions C27_statement_empty.

Theorem C27_statement_refused : forall cap checks ps args m e, ps_stmt_id ps < 2 ^ 32 -> Forall arg_ok args ->
  sendable checks (write_stmt_execute (ps_stmt_id ps) (map to_col args)) -> err_message cap m e ->
  conversation cap (stmt_qry checks ps (map to_col args)) [executes (ps_stmt_id ps) (map arg_value args)] [m] (Err e).
Proof. exact stmt_qry_err. Qed.
Print Assumptions C27_statement_refused.

(** The result set delivers exactly the rows sent, plain or mapped, in both protocols. *)
Theorem C27_text_rows : forall c defs stmt rows ms last d, defs_ok defs -> text_rows_wire defs rows ms ->
  last_message (c_cap c) last -> awaits c (ms ++ [last]) d ->
  delivers (next_row text_rows) (rs_new defs stmt) c rows d /\
  (forall O (f : list (option bytes) -> O), delivers (map_next_row text_rows f) (rs_new defs stmt) c (map f rows) d).
Proof. exact text_delivers. Qed.
Print Assumptions C27_text_rows.

Theorem C27_binary_rows : forall c defs stmt rows ms last d, defs_ok defs -> binary_rows_wire defs rows ms ->
  last_message (c_cap c) last -> awaits c (ms ++ [last]) d ->
  delivers (next_row binary_rows) (rs_new defs stmt) c rows d /\
  (forall O (f : list binary_value -> O), delivers (map_next_row binary_rows f) (rs_new defs stmt) c (map f rows) d).
Proof. exact binary_delivers. Qed.
Print Assumptions C27_binary_rows.

(** A connection lost among the rows is an error, never the end of the rows. *)
Theorem C27_text_truncated : forall c defs stmt rows ms d, defs_ok defs -> text_rows_wire defs rows ms ->
  awaits c ms d -> no_message d -> breaks (next_row text_rows) (rs_new defs stmt) c rows EIO.
Proof. exact text_truncated. Qed.
Print Assumptions C27_text_truncated.

Theorem C27_binary_truncated : forall c defs stmt rows ms d, binary_rows_wire defs rows ms ->
  awaits c ms d -> no_message d -> breaks (next_row binary_rows) (rs_new defs stmt) c rows EIO.
Proof. exact binary_truncated. Qed.
Print Assumptions C27_binary_truncated.

(** A server error among text rows is an error - but (finding) not the server's: its
    code and message are lost. *)
Theorem C27_text_error : forall c defs stmt rows ms body d, defs_ok defs -> text_rows_wire defs rows ms ->
  awaits c (ms ++ [xff :: body]) d -> breaks (next_row text_rows) (rs_new defs stmt) c rows EConstraint.
Proof. exact text_error_lost. Qed.
Print Assumptions C27_text_error.

(** Finding: among binary rows a server error is read exactly like a row ... *)
Theorem C27_binary_error_like_row : forall c c0 defs stmt body d d0,
  awaits c [xff :: body] d -> awaits c0 [x00 :: body] d0 ->
  fst (fst (next_row binary_rows (rs_new defs stmt) c)) = fst (fst (next_row binary_rows (rs_new defs stmt) c0)).
Proof. exact binary_error_like_row. Qed.
Print Assumptions C27_binary_error_like_row.

(** ... so "Query execution was interrupted" may arrive as a row holding NULL. *)
Definition err_1317 : bytes := err_wire 0x01000200 1317 (str "70100") (str "Query execution was interrupted").
Definition one_column (ct : column_type) : column_def :=
  mk_cd (str "def") [] [] [] (str "n") [] 63 20 ct 0 0 [].
Theorem C27_binary_error_refuted : exists c defs e c',
  defs_ok defs /\ err_message (c_cap c) err_1317 e /\ awaits c [err_1317] [] /\
  next_row binary_rows (rs_new defs None) c = (Ok (Some [BNull]), rs_new defs None, c').
Proof.
  exists (mk_conn (chunks [err_1317]) [] [] 0x01000200 0 0), [one_column TLongLong].
  do 2 eexists. split; [|split; [|split]].
  - split; [discriminate|]. split; [reflexivity|]. repeat constructor.
  - apply errm; reflexivity.
  - apply chunks_await. repeat constructor.
  - vm_compute. reflexivity.
Qed.
Print Assumptions C27_binary_error_refuted.

(** Closing a statement's result set closes the statement, once; a query's sends nothing. *)
Theorem C27_close : forall checks defs id c, id < 2 ^ 32 -> accepting (c_ws c) ->
  exists rs' c' m, rs_close checks (rs_new defs (Some id)) c = (Ok tt, rs', c') /\ commanded c c' [m] /\
    server_request (c_cap c) m = Some (RqStmtClose id) /\ same_but_write c c' /\
    (forall c2, rs_close checks rs' c2 = (Ok tt, rs', c2)).
Proof. exact rs_close_stmt. Qed.
Print Assumptions C27_close.

Theorem C27_close_query : forall checks defs c, rs_close checks (rs_new defs None) c = (Ok tt, rs_new defs None, c).
Proof. exact rs_close_text. Qed.
Print Assumptions C27_close_query.

(** two rows over one column, with and without an EOF packet after the definitions *)
Example C27_example : 
  let defs := [one_column TVarString] in
  let rows := [[Some (str "a")]; [None]; [Some []]] in
  let last := ok_wire 0x01000200 0xfe 0 0 2 0 [] [] in
  let c := mk_conn (chunks (map text_row rows ++ [last])) [] [] 0x01000200 0 0 in
  delivers (next_row text_rows) (rs_new defs None) c rows [].
Proof.
  intros defs rows last c. apply (C27_text_rows c defs None rows (map text_row rows) last []).
  - split; [discriminate|]. split; [reflexivity|]. repeat constructor.
  - repeat constructor.
  - split; [|reflexivity]. constructor; reflexivity.
  - apply chunks_await. repeat constructor.
Qed.
Example C27_example_heading : exists hd, heading 0x200 [one_column TLong] hd /\ length hd = 3%nat.
Proof.
  exists (wlenenc 1 :: map coldef_wire [one_column TLong] ++ [eof_wire 0x200 0 2]). split; [|reflexivity].
  exists [eof_wire 0x200 0 2]. split; [|reflexivity]. exists (eof_wire 0x200 0 2). split; [constructor; reflexivity|reflexivity].
Qed.
Example C27_example_truncated : no_message [].
Proof. exact nil_no_message. Qed.

(** ** C28 *)
(** Success on OK, the server's error on ERR, whatever other messages precede; exactly
    these messages are read. *)
Theorem C28_query_ok : forall cap checks sql skip m, sendable checks sql -> Forall skipped skip -> ok_message cap 0 m ->
  conversation cap (query_exec checks sql) [asks cap (RqQuery sql)] (skip ++ [m]) (Ok tt).
Proof. exact exec_ok. Qed.
Print Assumptions C28_query_ok.

Theorem C28_query_err : forall cap checks sql skip m e, sendable checks sql -> Forall skipped skip -> err_message cap m e ->
  conversation cap (query_exec checks sql) [asks cap (RqQuery sql)] (skip ++ [m]) (Err e).
Proof. exact exec_err. Qed.
Print Assumptions C28_query_err.

Theorem C28_statement_ok : forall cap checks ps args skip m, ps_stmt_id ps < 2 ^ 32 -> Forall arg_ok args ->
  sendable checks (write_stmt_execute (ps_stmt_id ps) (map to_col args)) -> Forall skipped skip -> ok_message cap 0 m ->
  conversation cap (stmt_exec checks ps (map to_col args)) [executes (ps_stmt_id ps) (map arg_value args)] (skip ++ [m]) (Ok tt).
Proof. exact stmt_exec_ok. Qed.
Print Assumptions C28_statement_ok.

Theorem C28_statement_err : forall cap checks ps args skip m e, ps_stmt_id ps < 2 ^ 32 -> Forall arg_ok args ->
  sendable checks (write_stmt_execute (ps_stmt_id ps) (map to_col args)) -> Forall skipped skip -> err_message cap m e ->
  conversation cap (stmt_exec checks ps (map to_col args)) [executes (ps_stmt_id ps) (map arg_value args)] (skip ++ [m]) (Err e).
Proof. exact stmt_exec_err. Qed.
Print Assumptions C28_statement_err.

(** Success is reported only after a message starting like an OK packet and readable as
    one, and the stream is left right behind it. *)
Theorem C28_query_sound : forall checks sql c c', sendable checks sql -> accepting (c_ws c) ->
  query_exec checks sql c = (Ok tt, c') ->
  exists skip m p, Forall skipped skip /\ (exists r, m = x00 :: r) /\ fst (read_ok_packet (c_cap c) m) = Ok p /\
      awaits c (skip ++ [m]) (delivered (c_rd c')).
Proof. exact exec_sound. Qed.
Print Assumptions C28_query_sound.

Theorem C28_statement_sound : forall checks ps params c c', sendable checks (write_stmt_execute (ps_stmt_id ps) params) ->
  accepting (c_ws c) -> stmt_exec checks ps params c = (Ok tt, c') ->
  exists skip m p, Forall skipped skip /\ (exists r, m = x00 :: r) /\ fst (read_ok_packet (c_cap c) m) = Ok p /\
      awaits c (skip ++ [m]) (delivered (c_rd c')).
Proof. exact stmt_exec_sound. Qed.
Print Assumptions C28_statement_sound.

(** Preparing *)
Theorem C28_prepare : forall cap checks sql id cols params warnings ms1 ms2,
  sendable checks sql -> id < 2 ^ 32 -> warnings < 2 ^ 16 ->
  Forall coldef_ok cols -> Forall coldef_ok params -> N.of_nat (length cols) < 2 ^ 16 -> N.of_nat (length params) < 2 ^ 16 ->
  defs_block cap params ms1 -> defs_block cap cols ms2 ->
  conversation cap (stmt_prepare checks sql) [asks cap (RqStmtPrepare sql)]
    (prepare_ok_wire id (N.of_nat (length cols)) (N.of_nat (length params)) warnings :: ms1 ++ ms2)
    (Ok (mk_ps id cols params warnings)).
Proof. exact prepare_ok. Qed.
Print Assumptions C28_prepare.

Theorem C28_prepare_refused : forall cap checks sql m e, sendable checks sql -> err_message cap m e ->
  conversation cap (stmt_prepare checks sql) [asks cap (RqStmtPrepare sql)] [m] (Err e).
Proof. exact prepare_err. Qed.
Print Assumptions C28_prepare_refused.

(** Executing and closing: the statement is closed whatever the verdict, which is returned. *)
Theorem C28_exec_close : forall cap checks ps args skip m r, ps_stmt_id ps < 2 ^ 32 -> Forall arg_ok args ->
  sendable checks (write_stmt_execute (ps_stmt_id ps) (map to_col args)) -> Forall skipped skip ->
  ok_message cap 0 m /\ r = Ok tt \/ (exists e, err_message cap m e /\ r = Err e) ->
  conversation cap (stmt_exec_close checks ps (map to_col args))
    [executes (ps_stmt_id ps) (map arg_value args); asks cap (RqStmtClose (ps_stmt_id ps))] (skip ++ [m]) r.
Proof. exact stmt_exec_close_conv. Qed.
Print Assumptions C28_exec_close.

Theorem C28_close : forall cap checks ps, ps_stmt_id ps < 2 ^ 32 ->
  conversation cap (stmt_close checks ps) [asks cap (RqStmtClose (ps_stmt_id ps))] [] (Ok tt).
Proof. exact close_ok. Qed.
Print Assumptions C28_close.

(** Finding: executing a SELECT as a statement takes a row for an OK packet.  Success is
    reported and the rest of the rows is left on the stream. *)
Theorem C28_exec_select_refuted : exists cap defs hd row m,
  defs_ok defs /\ heading cap defs hd /\ binary_rows_wire defs [row] [m] /\
  forall checks ps, ps_stmt_id ps < 2 ^ 32 ->
    conversation cap (stmt_exec checks ps []) [executes (ps_stmt_id ps) []] (hd ++ [m]) (Ok tt).
Proof.
  exists 0x01000200, [one_column TLongLong], [wlenenc 1; coldef_wire (one_column TLongLong)],
    [BLongLong 1], (x00 :: x00 :: [x01; x00; x00; x00; x00; x00; x00; x00]).
  split; [split; [discriminate|split; [reflexivity|repeat constructor]]|].
  split; [exists []; split; reflexivity|].
  split.
  - constructor; [|constructor]. exists [false], [x00], [x01; x00; x00; x00; x00; x00; x00; x00].
    split; [|split; [|reflexivity]].
    + change [x01; x00; x00; x00; x00; x00; x00; x00] with ([x01; x00; x00; x00; x00; x00; x00; x00] ++ []).
      constructor; constructor; reflexivity.
    + split; [reflexivity|]. intros [|i] Hi; [reflexivity|cbn in Hi; Lia.lia].
  - intros checks ps Hi. apply (C28_statement_ok _ checks ps [] [wlenenc 1; coldef_wire (one_column TLongLong)]).
    + exact Hi.
    + constructor.
    + right. reflexivity.
    + repeat constructor; eexists _, _; (split; [reflexivity|split; discriminate]).
    + apply (okm 0x01000200 0 0 1 0 0 [x00; x00; x00] []); reflexivity.
Qed.
Print Assumptions C28_exec_select_refuted.

(** Finding: executing as a query a SELECT whose rows do not start like an OK packet
    never returns: the whole answer is skipped, and the next message awaited until the
    connection ends. *)
Theorem C28_query_select_refuted : forall checks sql ms c d, sendable checks sql -> accepting (c_ws c) ->
  Forall skipped ms -> awaits c ms d -> no_message d ->
  exists c', query_exec checks sql c = (Err EIO, c').
Proof. exact exec_rows_swallowed. Qed.
Print Assumptions C28_query_select_refuted.

Example C28_example : 
  let m := ok_wire 0x200 0 3 0 2 0 [] [] in
  let c := mk_conn (chunks [m]) [WPending; WAccept 2] [] 0x200 0 0 in
  exists c' ms, query_exec true (str "DELETE FROM t") c = (Ok tt, c') /\ commanded c c' ms /\
    Forall2 (fun rq m => rq m) [asks 0x200 (RqQuery (str "DELETE FROM t"))] ms /\ delivered (c_rd c') = [].
Proof.
  intros m c. destruct (C28_query_ok 0x200 true (str "DELETE FROM t") [] m) with (c := c) (d := @nil byte) as (c' & ms & E & O & F & D & _).
  - right. reflexivity.
  - constructor.
  - constructor; reflexivity.
  - reflexivity.
  - cbn. split; [discriminate|exact I].
  - apply chunks_await. repeat constructor.
  - eauto 6.
Qed.
Example C28_example_select : Forall skipped ([wlenenc 1; coldef_wire (one_column TLongLong)] ++
  [text_row [Some (str "1")]] ++ [ok_wire 0x01000200 0xfe 0 0 2 0 [] []]).
Proof. repeat constructor; eexists _, _; (split; [reflexivity|split; discriminate]). Qed.
Example C28_example_block : defs_block 0x200 [one_column TLong] [coldef_wire (one_column TLong); eof_wire 0x200 0 2].
Proof. exists [eof_wire 0x200 0 2]. split; [|reflexivity]. exists (eof_wire 0x200 0 2). split; [constructor; reflexivity|reflexivity]. Qed.

(** ** C50 *)
(** The commands answered by OK or ERR *)
Theorem C50_simple_ok : forall cap checks cmd rq m, simple_command checks cmd rq -> ok_message cap 0 m ->
  conversation cap cmd [asks cap rq] [m] (Ok tt).
Proof. exact simple_ok. Qed.
Print Assumptions C50_simple_ok.

Theorem C50_simple_err : forall cap checks cmd rq m e, simple_command checks cmd rq -> err_message cap m e ->
  conversation cap cmd [asks cap rq] [m] (Err e).
Proof. exact simple_err. Qed.
Print Assumptions C50_simple_err.

Theorem C50_simple_other : forall cap checks cmd rq m, simple_command checks cmd rq -> skipped m ->
  conversation cap cmd [asks cap rq] [m] (Err EConstraint).
Proof. exact simple_other. Qed.
Print Assumptions C50_simple_other.

Theorem C50_quit : forall cap checks, conversation cap (conn_quit checks) [asks cap RqQuit] [] (Ok tt).
Proof. exact quit_conv. Qed.
Print Assumptions C50_quit.

(** The columns of a table *)
Theorem C50_field_list : forall cap checks table wildcard defs m r, no_nul table -> sendable checks (table ++ wildcard) ->
  Forall (fun d => field_ok d /\ N.of_nat (length (cd_catalog d)) < 2 ^ 24) defs ->
  eof_message cap m /\ r = None \/ (exists e, err_message cap m e /\ r = Some e) ->
  conversation cap (conn_field_list checks table wildcard) [asks cap (RqFieldList table wildcard)]
    (map field_wire defs ++ [m]) (match r with None => Ok defs | Some e => Err e end).
Proof. exact field_list_conv. Qed.
Print Assumptions C50_field_list.

(** Statistics: the server's text.  Finding: an error answer is reported as bad UTF-8. *)
Theorem C50_statistics : forall cap checks m,
  conversation cap (conn_statistics checks) [asks cap RqStatistics] [m] (if utf8_valid m then Ok m else Err EUtf8) /\
  (forall e, err_message cap m e -> utf8_valid m = false).
Proof. exact statistics_both. Qed.
Print Assumptions C50_statistics.

Theorem C50_debug : forall cap checks m, eof_message cap m -> conversation cap (conn_debug checks) [asks cap RqDebug] [m] (Ok tt).
Proof. exact debug_eof. Qed.
Print Assumptions C50_debug.
Theorem C50_debug_err : forall cap checks m e, err_message cap m e ->
  conversation cap (conn_debug checks) [asks cap RqDebug] [m] (Err e).
Proof. exact debug_err. Qed.
Print Assumptions C50_debug_err.

Theorem C50_ping : forall cap checks m, ok_message cap 0 m -> conversation cap (conn_ping checks) [asks cap RqPing] [m] (Ok tt).
Proof. exact ping_ok_0. Qed.
Print Assumptions C50_ping.
(** Finding: a ping the server answers with an error succeeds. *)
Theorem C50_ping_error_refuted : forall cap checks code s0 s1 s2 s3 s4 msg,
  cap_protocol_41 cap = true -> cap_session_track cap = false ->
  code < 2 ^ 16 -> code mod 256 < 251 -> code / 256 < 251 -> b2n s0 < 128 -> N.of_nat (length msg) < 2 ^ 63 ->
  conversation cap (conn_ping checks) [asks cap RqPing] [err_wire cap code [s0; s1; s2; s3; s4] msg] (Ok tt).
Proof. exact ping_hides_error. Qed.
Print Assumptions C50_ping_error_refuted.

(** Multiple statements: the flag follows the argument.  Finding: the server is asked for
    the opposite. *)
Theorem C50_multi_statements_refuted : forall cap checks b m c d, eof_message cap m -> c_cap c = cap -> accepting (c_ws c) ->
  awaits c [m] d ->
  exists c' ms, conn_set_multi_stmts checks b c = (Ok tt, c') /\ commanded c c' [ms] /\
    server_request cap ms = Some (RqSetOption (negb b)) /\ delivered (c_rd c') = d /\
    (forall i, N.testbit (c_cap c') i = if i =? 16 then b else N.testbit cap i).
Proof. exact multi_eof. Qed.
Print Assumptions C50_multi_statements_refuted.
Theorem C50_multi_statements_err : forall cap checks b m e, err_message cap m e ->
  conversation cap (conn_set_multi_stmts checks b) [asks cap (RqSetOption (negb b))] [m] (Err e).
Proof. exact multi_err. Qed.
Print Assumptions C50_multi_statements_err.

(** The process list is a result set. *)
Theorem C50_process_info : forall cap checks defs hd, defs_ok defs -> heading cap defs hd ->
  conversation cap (conn_process_info checks) [asks cap RqProcessInfo] hd (Ok (rs_new defs None)).
Proof. exact process_info_ok. Qed.
Print Assumptions C50_process_info.
Theorem C50_process_info_err : forall cap checks m e, err_message cap m e ->
  conversation cap (conn_process_info checks) [asks cap RqProcessInfo] [m] (Err e).
Proof. exact process_info_err. Qed.
Print Assumptions C50_process_info_err.

(** Changing the user, accepted or refused at once *)
Theorem C50_change_user : forall (sha1 sha256 : bytes -> bytes) cap checks user pw db attrs m,
  let packet := write_change_user cap (new_change_user user [] db (str "mysql_native_password") attrs) in
  no_nul user -> no_nul db -> Forall attr_ok attrs -> str_ok (attrs_wire attrs) -> sendable checks packet ->
  forall r, (ok_message cap 0 m /\ r = Ok tt) \/ (exists e, err_message cap m e /\ r = Err e) ->
  conversation cap (conn_change_user sha1 sha256 checks user pw db attrs)
    [asks cap (RqChangeUser user [] db 33 (if cap_plugin_auth cap then Some (str "mysql_native_password") else None)
       (if cap_connect_attrs cap then Some (map (fun a => (at_key a, at_value a)) attrs) else None))] [m] r.
Proof. exact change_user_ok. Qed.
Print Assumptions C50_change_user.

(** after a switch to the native method, with a response the server accepts *)
Theorem C50_change_user_switch : forall (sha1 sha256 : bytes -> bytes) cap checks user pw db attrs nonce m c d,
  let packet := write_change_user cap (new_change_user user [] db (str "mysql_native_password") attrs) in
  (forall x, length (sha1 x) = 20%nat) -> pw <> [] ->
  no_nul user -> no_nul db -> Forall attr_ok attrs -> str_ok (attrs_wire attrs) -> sendable checks packet ->
  ok_message cap 0 m -> c_cap c = cap -> accepting (c_ws c) ->
  awaits_numbered c x01 (switch_wire (str "mysql_native_password") (nonce ++ [x00])) [m] d ->
  exists c' resp, conn_change_user sha1 sha256 checks user pw db attrs c = (Ok tt, c') /\
    sent c c' [packet; resp] /\ native_accepts sha1 (sha1 (sha1 pw)) nonce resp /\
    delivered (c_rd c') = d /\ c_cap c' = cap.
Proof. exact change_user_switch. Qed.
Print Assumptions C50_change_user_switch.

(** a switch to a method the client does not have is an error of its own; nothing about the password is sent *)
Theorem C50_change_user_unknown : forall (sha1 sha256 : bytes -> bytes) cap checks user pw db attrs plugin data,
  let packet := write_change_user cap (new_change_user user [] db (str "mysql_native_password") attrs) in
  no_nul user -> no_nul db -> Forall attr_ok attrs -> str_ok (attrs_wire attrs) -> sendable checks packet ->
  no_nul plugin -> utf8_valid plugin = true -> plugin <> str "mysql_native_password" -> plugin <> str "caching_sha2_password" ->
  conversation cap (conn_change_user sha1 sha256 checks user pw db attrs)
    [asks cap (RqChangeUser user [] db 33 (if cap_plugin_auth cap then Some (str "mysql_native_password") else None)
       (if cap_connect_attrs cap then Some (map (fun a => (at_key a, at_value a)) attrs) else None))]
    [switch_wire plugin data] (Err ECustom).
Proof. exact change_user_unknown. Qed.
Print Assumptions C50_change_user_unknown.

(** Finding: more authentication data without a preceding switch makes the client panic. *)
Theorem C50_change_user_more_refuted : forall (sha1 sha256 : bytes -> bytes) cap checks user pw db attrs data c d,
  let packet := write_change_user cap (new_change_user user [] db (str "mysql_native_password") attrs) in
  sendable checks packet -> c_cap c = cap -> accepting (c_ws c) -> awaits c [more_wire data] d ->
  exists c', conn_change_user sha1 sha256 checks user pw db attrs c = (Panic PUnwrap, c').
Proof. exact change_user_more. Qed.
Print Assumptions C50_change_user_more_refuted.

(** System variables: the second column of the first row, converted *)
Theorem C50_get_var : forall V cap checks (from_col : option bytes -> res V) name (global : bool) defs rows hd ms last,
  let sql := str (if global then "SHOW GLOBAL VARIABLES LIKE '" else "SHOW VARIABLES LIKE '") ++ name ++ str "'" in
  sendable checks sql -> defs_ok defs -> heading cap defs hd -> text_rows_wire defs rows ms -> last_message cap last ->
  (forall row rows', rows = row :: rows' -> (2 <= length row)%nat) ->
  conversation cap (conn_get_var checks from_col name global) [asks cap (RqQuery sql)] (hd ++ ms ++ [last])
    (match rows with [] => Ok None | row :: _ => rmap Some (from_col (nth 1 row None)) end).
Proof. exact get_var_spec. Qed.
Print Assumptions C50_get_var.

Theorem C50_get_user_var : forall V cap checks (from_col : option bytes -> res V) name defs rows hd ms last,
  sendable checks (str "SELECT @" ++ name) -> defs_ok defs -> heading cap defs hd -> text_rows_wire defs rows ms ->
  last_message cap last ->
  conversation cap (conn_get_user_var checks from_col name) [asks cap (RqQuery (str "SELECT @" ++ name))]
    (hd ++ ms ++ [last])
    (match rows with [] => Ok None | row :: _ => rmap Some (from_col (nth 0 row None)) end).
Proof. exact @get_user_var_conv. Qed.
Print Assumptions C50_get_user_var.

(** Setting a variable prepares, executes with the value and closes. *)
Theorem C50_set_var : forall cap checks name (global : bool) id params warnings ms1 arg m r,
  let sql := str (if global then "SET @@GLOBAL." else "SET @@") ++ name ++ str " = ?" in
  sendable checks sql -> id < 2 ^ 32 -> warnings < 2 ^ 16 ->
  Forall coldef_ok params -> N.of_nat (length params) < 2 ^ 16 -> defs_block cap params ms1 ->
  arg_ok arg -> sendable checks (write_stmt_execute id [to_col arg]) ->
  ok_message cap 0 m /\ r = Ok tt \/ (exists e, err_message cap m e /\ r = Err e) ->
  conversation cap (conn_set_var checks name (to_col arg) global)
    [asks cap (RqStmtPrepare sql); executes id [arg_value arg]; asks cap (RqStmtClose id)]
    ((prepare_ok_wire id 0 (N.of_nat (length params)) warnings :: ms1) ++ [m]) r.
Proof. exact set_var_spec. Qed.
Print Assumptions C50_set_var.

Theorem C50_set_user_var : forall cap checks name id params warnings ms1 arg m r,
  let sql := str "SET @" ++ name ++ str " = ?" in
  sendable checks sql -> id < 2 ^ 32 -> warnings < 2 ^ 16 ->
  Forall coldef_ok params -> N.of_nat (length params) < 2 ^ 16 -> defs_block cap params ms1 ->
  arg_ok arg -> sendable checks (write_stmt_execute id [to_col arg]) ->
  ok_message cap 0 m /\ r = Ok tt \/ (exists e, err_message cap m e /\ r = Err e) ->
  conversation cap (conn_set_user_var checks name (to_col arg))
    [asks cap (RqStmtPrepare sql); executes id [arg_value arg]; asks cap (RqStmtClose id)]
    ((prepare_ok_wire id 0 (N.of_nat (length params)) warnings :: ms1) ++ [m]) r.
Proof. exact set_user_var_spec. Qed.
Print Assumptions C50_set_user_var.

(** The binlog files: names and sizes as listed *)
Theorem C50_binlog_files : forall cap checks defs files rows hd ms last, defs_ok defs -> heading cap defs hd ->
  text_rows_wire defs rows ms -> last_message cap last ->
  Forall2 (fun f row => exists s more, row = Some (fst f) :: Some s :: more /\ utf8_valid (fst f) = true /\
     unsigned_text (snd f) s /\ snd f < 2 ^ 64) files rows ->
  conversation cap (conn_binlog_files checks) [asks cap (RqQuery (str "SHOW MASTER LOGS"))] (hd ++ ms ++ [last]) (Ok files).
Proof. exact binlog_files_conv. Qed.
Print Assumptions C50_binlog_files.

Example C50_example_commands :
  simple_command true (conn_init_db true (str "db")) (RqInitDb (str "db")) /\
  simple_command true (conn_process_kill true 7) (RqProcessKill 7) /\
  ok_message 0x200 0 (ok_wire 0x200 0 0 0 2 0 [] []) /\ eof_message 0x200 (eof_wire 0x200 0 2) /\
  eof_message 0x01000200 [xfe; x00; x00; x02; x00; x00; x00] /\
  err_message 0x200 (err_wire 0x200 1049 (str "42000") (str "Unknown database")) (ESql 1049 x23 (str "42000") (str "Unknown database")).
Proof.
  split; [apply sc_init_db; right; reflexivity|]. split; [apply sc_process_kill; reflexivity|].
  split; [constructor; reflexivity|]. split; [constructor; reflexivity|].
  split; [apply (eofm_ok 0x01000200 2 0 [] []); reflexivity|]. constructor; reflexivity.
Qed.
Example C50_example_binlog : 
  let cap := 0x01000200 in
  let defs := [one_column TVarString; one_column TLongLong] in
  let rows := [[Some (str "mysql-bin.000001"); Some (str "154")]; [Some (str "mysql-bin.000002"); Some (str "0")]] in
  let hd := wlenenc 2 :: map coldef_wire defs in
  let last := ok_wire cap 0xfe 0 0 2 0 [] [] in
  let c := mk_conn (chunks (hd ++ map text_row rows ++ [last])) [WAccept 1] [] cap 0 0 in
  exists c', conn_binlog_files true c = (Ok [(str "mysql-bin.000001", 154); (str "mysql-bin.000002", 0)], c').
Proof. vm_compute. eexists. reflexivity. Qed.
Example C50_example_ping : let code := 1053 in code mod 256 < 251 /\ code / 256 < 251 /\ b2n x30 < 128.
Proof. repeat split. Qed.
