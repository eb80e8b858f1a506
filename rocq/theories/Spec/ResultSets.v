(** * Independent specification: answers to queries and commands

    From the MySQL protocol documentation (COM_QUERY Response,
    ProtocolText::Resultset, ProtocolBinary::Resultset, ColumnDefinition41,
    COM_STMT_PREPARE Response). *)
From Coq Require Import List NArith ZArith Arith Bool.
From Verif Require Import Model.Base Model.Utf8 Model.Conn Model.Col Model.Packet Model.Session
  Spec.Wire Spec.Packets Spec.Values Spec.Framing Spec.Session Spec.Commands Spec.Execute.
Import ListNotations.
Open Scope N_scope.

(** ** Column definitions *)
Definition coldef_wire (d : column_def) : bytes :=
  wlstr (cd_catalog d) ++ wlstr (cd_schema d) ++ wlstr (cd_table d) ++ wlstr (cd_org_table d) ++
  wlstr (cd_name d) ++ wlstr (cd_org_name d) ++ wlenenc 12 ++
  wle 2 (cd_charset d) ++ wle 4 (cd_col_len d) ++ wle 1 (column_type_code (cd_type d)) ++
  wle 2 (cd_flags d) ++ wle 1 (cd_decimals d) ++ [x00; x00].
(** in answer to COM_FIELD_LIST the default value follows *)
Definition field_wire (d : column_def) : bytes := coldef_wire d ++ wlstr (cd_default d).
Definition name_ok (s : bytes) : Prop := N.of_nat (length s) < 2 ^ 64 /\ utf8_valid s = true.
Definition field_ok (d : column_def) : Prop :=
  name_ok (cd_catalog d) /\ name_ok (cd_schema d) /\ name_ok (cd_table d) /\ name_ok (cd_org_table d) /\
  name_ok (cd_name d) /\ name_ok (cd_org_name d) /\
  cd_charset d < 2 ^ 16 /\ cd_col_len d < 2 ^ 32 /\ cd_flags d < 2 ^ 16 /\ cd_decimals d < 2 ^ 8 /\
  name_ok (cd_default d).
Definition coldef_ok (d : column_def) : Prop := field_ok d /\ cd_default d = [].

(** ** Packets *)
Definition cap_deprecate_eof (c : N) : bool := N.testbit c 24.
(** an OK packet *)
Inductive ok_message (cap header : N) : bytes -> Prop :=
| okm affected insert_id status warnings info state :
    affected < 2 ^ 64 -> insert_id < 2 ^ 64 -> status < 2 ^ 15 -> warnings < 2 ^ 16 ->
    N.of_nat (length info) < 2 ^ 64 -> N.of_nat (length state) < 2 ^ 64 ->
    ok_message cap header (ok_wire cap header affected insert_id status warnings info state).
(** an EOF packet; to a client that set the flag deprecating it, a server sends in its place an OK
    packet with header 0xfe and no affected rows *)
Inductive eof_message (cap : N) : bytes -> Prop :=
| eofm warnings status : warnings < 2 ^ 16 -> status < 2 ^ 15 -> eof_message cap (eof_wire cap warnings status)
| eofm_ok status warnings info state : cap_deprecate_eof cap = true -> cap_protocol_41 cap = true ->
    status < 2 ^ 15 -> eof_message cap (ok_wire cap 0xfe 0 0 status warnings info state).
(** an ERR packet and what the application should learn of it *)
Inductive err_message (cap : N) : bytes -> error -> Prop :=
| errm code state msg : code < 2 ^ 16 -> length state = 5%nat -> utf8_valid state = true -> utf8_valid msg = true ->
    cap_protocol_41 cap = true ->
    err_message cap (err_wire cap code state msg) (ESql code x23 state msg).
(** the packet ending the rows: EOF, or OK with header 0xfe if both sides support that.
    It is one packet, not continued. *)
Definition last_message (cap : N) (m : bytes) : Prop :=
  if cap_deprecate_eof cap then ok_message cap 0xfe m /\ N.of_nat (length m) < 2 ^ 24 else eof_message cap m.
(** the EOF packet after definitions, if not deprecated *)
Definition defs_end (cap : N) (ms : list bytes) : Prop :=
  if cap_deprecate_eof cap then ms = [] else exists m, eof_message cap m /\ ms = [m].

(** ** Result sets *)
(** the messages before the first row: column count, definitions, end of definitions *)
Definition heading (cap : N) (defs : list column_def) (ms : list bytes) : Prop :=
  exists e, defs_end cap e /\ ms = wlenenc (N.of_nat (length defs)) :: map coldef_wire defs ++ e.
Definition defs_ok (defs : list column_def) : Prop :=
  defs <> [] /\ N.of_nat (length defs) < 2 ^ 32 /\ Forall coldef_ok defs.
(** text rows: one cell per column *)
Definition text_rows_wire (defs : list column_def) (rows : list (list (option bytes))) (ms : list bytes) : Prop :=
  Forall2 (fun row m => length row = length defs /\
    Forall (fun c => match c with Some s => N.of_nat (length s) < 2 ^ 64 | None => True end) row /\
    m = text_row row) rows ms.
(** binary rows *)
Definition binary_rows_wire (defs : list column_def) (rows : list (list binary_value)) (ms : list bytes) : Prop :=
  Forall2 (wire_row (map cd_type defs)) rows ms.

(** ** Using a result set *)
(** the results of [n] calls in a row of a method returning rows *)
Fixpoint pulls {A} (next : rs_io (option A)) (n : nat) (rs : result_set) (c : conn) : list (res (option A)) * result_set * conn :=
  match n with
  | O => ([], rs, c)
  | S n =>
      let '(r, rs1, c1) := next rs c in
      let '(l, rs2, c2) := pulls next n rs1 c1 in
      (r :: l, rs2, c2)
  end.
(** the first [n] elements of: the rows, then None for ever *)
Definition expected {A} (rows : list A) (n : nat) : list (res (option A)) :=
  firstn n (map (fun r => Ok (Some r)) rows ++ repeat (Ok None) n).

(** The result set [rs] on the connection [c] delivers exactly [rows]: one by one, then
    None for ever; all at once; counted; the first.  Afterwards exactly the bytes [d]
    are unread, nothing was sent, and the connection is otherwise unchanged. *)
Definition delivers {A} (next : rs_io (option A)) (rs : result_set) (c : conn) (rows : list A) (d : bytes) : Prop :=
  (forall n, exists rs' c', pulls next n rs c = (expected rows n, rs', c') /\ same_but_read c c' /\
     ((length rows < n)%nat -> delivered (c_rd c') = d)) /\
  (exists rs' c', rs_all next rs c = (Ok rows, rs', c') /\ delivered (c_rd c') = d /\ same_but_read c c') /\
  (exists rs' c', rs_count next rs c = (Ok (N.of_nat (length rows)), rs', c') /\ delivered (c_rd c') = d /\ same_but_read c c') /\
  (exists rs' c', rs_first_or_none next rs c = (Ok (hd_error rows), rs', c') /\ delivered (c_rd c') = d /\ same_but_read c c') /\
  (exists rs' c', rs_first next rs c =
     (match rows with [] => Err EEmptyResultSet | row :: _ => Ok row end, rs', c') /\ delivered (c_rd c') = d /\ same_but_read c c').

(** The result set delivers [rows] and then fails with [e]; collecting, counting and
    taking the first fail too. *)
Definition breaks {A} (next : rs_io (option A)) (rs : result_set) (c : conn) (rows : list A) (e : error) : Prop :=
  (exists rs' c', pulls next (S (length rows)) rs c = (map (fun r => Ok (Some r)) rows ++ [Err e], rs', c')) /\
  (exists rs' c', rs_all next rs c = (Err e, rs', c')) /\
  (exists rs' c', rs_count next rs c = (Err e, rs', c')) /\
  (exists rs' c', rs_first_or_none next rs c = (Err e, rs', c')) /\
  (exists rs' c', rs_first next rs c = (Err e, rs', c')).

(** ** Commands *)
(** a message the execution of a command skips: neither OK nor ERR *)
Definition skipped (m : bytes) : Prop := exists b rest, m = b :: rest /\ b <> x00 /\ b <> xff.

(** messages sent back to back, the packets of each numbered from 0 *)
Inductive commands_wire : list bytes -> bytes -> Prop :=
| cw_nil : commands_wire [] []
| cw_cons p w ps ws seqs : message_wire seqs p w -> consecutive 0 seqs -> commands_wire ps ws ->
    commands_wire (p :: ps) (w ++ ws).
(** between [c] and [c'] the client sent exactly these messages *)
Definition commanded (c c' : conn) (ms : list bytes) : Prop :=
  exists w, commands_wire ms w /\ c_out c' = c_out c ++ w.

(** how the server understands a message *)
Definition asks (cap : N) (rq : request) (m : bytes) : Prop := server_request cap m = Some rq.
Definition executes (stmt_id : N) (args : list sql_value) (m : bytes) : Prop :=
  server_execute (length args) m = Some (mk_ex stmt_id 0 1 args).

(** [m] run on a connection with capabilities [cap] whose server answers with the
    messages [ps] sends exactly the requests [reqs], returns [r], reads exactly the
    answer and leaves the connection's other state alone *)
Definition conversation {A} (cap : N) (m : io A) (reqs : list (bytes -> Prop)) (ps : list bytes) (r : res A) : Prop :=
  forall c d, c_cap c = cap -> accepting (c_ws c) -> awaits c ps d ->
  exists c' ms, m c = (r, c') /\ commanded c c' ms /\ Forall2 (fun rq m => rq m) reqs ms /\
    delivered (c_rd c') = d /\ accepting (c_ws c') /\ c_cap c' = cap /\ c_status c' = c_status c.
(** an argument short enough for the packet numbers not to overflow (see C07) *)
Definition sendable (checks : bool) (s : bytes) : Prop := checks = false \/ N.of_nat (length s) < 2 ^ 31.

(** COM_STMT_PREPARE_OK *)
Definition prepare_ok_wire (stmt_id n_cols n_params warnings : N) : bytes :=
  wle 1 0 ++ wle 4 stmt_id ++ wle 2 n_cols ++ wle 2 n_params ++ wle 1 0 ++ wle 2 warnings.
(** definitions and their end, or nothing *)
Definition defs_block (cap : N) (defs : list column_def) (ms : list bytes) : Prop :=
  match defs with
  | [] => ms = []
  | _ => exists e, defs_end cap e /\ ms = map coldef_wire defs ++ e
  end.

(** what follows the complete messages on the stream holds no further one *)
Definition no_message (d : bytes) : Prop := forall seqs p w r, message_wire seqs p w -> d <> w ++ r.

(** ** The commands answered by OK or ERR *)
Inductive simple_command (checks : bool) : io unit -> request -> Prop :=
| sc_init_db db : sendable checks db -> simple_command checks (conn_init_db checks db) (RqInitDb db)
| sc_create_db db : sendable checks db -> simple_command checks (conn_create_db checks db) (RqCreateDb db)
| sc_drop_db db : sendable checks db -> simple_command checks (conn_drop_db checks db) (RqDropDb db)
| sc_refresh flags : flags < 2 ^ 8 -> simple_command checks (conn_refresh checks flags) (RqRefresh flags)
| sc_process_kill id : id < 2 ^ 32 -> simple_command checks (conn_process_kill checks id) (RqProcessKill id)
| sc_reset : simple_command checks (conn_reset_connection checks) RqResetConnection
| sc_register_slave id : id < 2 ^ 32 ->
    simple_command checks (conn_register_slave checks id) (RqRegisterSlave id [] [] [] 0 0 0).
