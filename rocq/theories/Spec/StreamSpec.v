(** * Independent specification: a binlog stream as the server sends it

    From the MySQL documentation (Replication Protocol, COM_BINLOG_DUMP,
    COM_BINLOG_DUMP_GTID, Binlog Network Stream). *)
From Coq Require Import Strings.String.
From Verif Require Import Model.Base Model.Auth Model.Conn Model.Col Model.Packet Model.Utf8 Model.Event Model.Stream
  Spec.Wire Spec.Packets Spec.Values Spec.Session Spec.Commands Spec.Execute Spec.ResultSets Spec.ExtractSpec Spec.BinlogSpec.
Open Scope N_scope.

(** every event is a message of its own, preceded by a zero byte *)
Definition event_message (crc : bytes -> N) (sum : bool) (e : log_event) : bytes := x00 :: stored crc sum e.
(** the events a client should see: the supported ones *)
Fixpoint reported (sum : bool) (es : list log_event) : list event :=
  match es with
  | [] => []
  | e :: es => match parsed sum e with Some v => v :: reported sum es | None => reported sum es end
  end.

(** the results of [n] calls in a row *)
Fixpoint io_pulls {A} (m : io A) (n : nat) (c : conn) : list (res A) * conn :=
  match n with
  | O => ([], c)
  | S n => let '(r, c1) := m c in let '(l, c2) := io_pulls m n c1 in (r :: l, c2)
  end.
(** calls that each return an event *)
Definition returned {E} (evs : list E) : list (res (option E)) := map (fun v => Ok (Some v)) evs.

(** ** Setting up *)
(** the client asks for a system variable; the server answers with its value *)
Definition get_requests (cap : N) (name : bytes) : list (bytes -> Prop) :=
  [asks cap (RqQuery (str "SHOW GLOBAL VARIABLES LIKE '" ++ name ++ str "'"))].
Definition variable_answer (cap : N) (value : bytes) (ps : list bytes) : Prop :=
  exists defs name more rows hd ms last, defs_ok defs /\ heading cap defs hd /\
    text_rows_wire defs ((name :: Some value :: more) :: rows) ms /\ last_message cap last /\ ps = hd ++ ms ++ [last].
(** ... or that there is no such variable *)
Definition variable_missing (cap : N) (ps : list bytes) : Prop :=
  exists defs hd last, defs_ok defs /\ heading cap defs hd /\ last_message cap last /\ ps = hd ++ [last].
(** the client sets a user variable by a prepared statement (which the server gives the id [id]) *)
Definition set_requests (cap id : N) (name : bytes) (value : sql_value) : list (bytes -> Prop) :=
  [asks cap (RqStmtPrepare (str "SET @" ++ name ++ str " = ?")); executes id [value]; asks cap (RqStmtClose id)].
Definition set_answer (cap id : N) (ps : list bytes) : Prop :=
  exists params warnings ms m, id < 2 ^ 32 /\ warnings < 2 ^ 16 /\ Forall coldef_ok params /\
    N.of_nat (length params) < 2 ^ 16 /\ defs_block cap params ms /\ ok_message cap 0 m /\
    ps = (prepare_ok_wire id 0 (N.of_nat (length params)) warnings :: ms) ++ [m].

(** the dump request for the given options: by GTIDs if they are on at the server *)
Definition expected_dump (gtids_on : bool) (slave_id : N) (o : binlog_options) : request :=
  let wait := if bo_non_block o then 1 else 0 in
  if gtids_on then
    RqBinlogDumpGtid ((match bo_sids o with [] => 2 | _ => 4 end) + wait) slave_id (bo_filename o) (bo_pos o)
      (gtids (bo_sids o))
  else RqBinlogDump (bo_pos o) wait slave_id (bo_filename o).
Definition options_ok (o : binlog_options) : Prop :=
  bo_pos o < 2 ^ 64 /\ bo_server_id o < 2 ^ 32 /\ N.of_nat (length (bo_filename o)) < 2 ^ 30 /\
  gtid_set_ok (gtids (bo_sids o)) /\ gtid_set_size (gtids (bo_sids o)) < 2 ^ 30.

(** the server starts with a rotate event naming the log and the format description of it.
    The rotate event carries four more bytes if checksums are on. *)
Definition rotate_message (sum : bool) (m : bytes) : Prop :=
  exists e pos name trailer, log_event_ok sum e /\ le_code e = 4 /\ le_body e = wle 8 pos ++ name /\ pos < 2 ^ 64 /\
    (length trailer = if sum then 4 else 0)%nat /\ m = x00 :: event_front sum e ++ trailer.
Definition description_message (d : fde_spec) (m : bytes) : Prop :=
  exists e, log_event_ok false e /\ le_code e = 15 /\ fde_ok d /\ le_body e = fde_body d /\
    m = x00 :: event_front false e.
Definition described_parser (d : fde_spec) : parser_v4 :=
  mk_parser (x00 :: fd_lens d) (match fd_tail d with Some (alg, _) => alg =? 1 | None => false end).

(** The whole exchange before the server's first event or refusal: the requests and the
    answers; [master_id], [algorithm], [mode] are the values of the server's variables. *)
Inductive set_up (cap : N) (o : binlog_options) (slave_uuid : bytes) (slave_id : N) :
  N -> bytes -> bytes -> list (bytes -> Prop) -> list bytes -> Prop :=
| set_up_intro master_id id_text algorithm mode server_uuid id1 id2 id3 a1 a2 a3 a4 a5 a6 a7 m :
    unsigned_text master_id id_text -> master_id < 2 ^ 32 ->
    utf8_valid algorithm = true -> (length algorithm <= 250)%nat -> utf8_valid mode = true -> utf8_valid server_uuid = true ->
    variable_answer cap id_text a1 ->
    set_answer cap id1 a2 ->
    variable_answer cap algorithm a3 ->
    set_answer cap id2 a4 ->
    variable_answer cap mode a5 ->
    variable_answer cap server_uuid a6 ->
    set_answer cap id3 a7 ->
    ok_message cap 0 m ->
    set_up cap o slave_uuid slave_id master_id algorithm mode
      (get_requests cap (str "SERVER_ID") ++
       set_requests cap id1 (str "MASTER_HEARTBEAT_PERIOD") (VInt (Z.of_N (bo_heartbeat o))) ++
       get_requests cap (str "BINLOG_CHECKSUM") ++
       set_requests cap id2 (str "MASTER_BINLOG_CHECKSUM") (VBytes algorithm) ++
       get_requests cap (str "GTID_MODE") ++
       get_requests cap (str "SERVER_UUID") ++
       set_requests cap id3 (str "SLAVE_UUID") (VBytes slave_uuid) ++
       [asks cap (RqRegisterSlave slave_id [] [] [] 0 0 master_id)])
      (a1 ++ a2 ++ a3 ++ a4 ++ a5 ++ a6 ++ a7 ++ [m]).
