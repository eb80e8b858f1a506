(** * Model of mybin-async/src/binlog.rs: requesting and reading a binlog stream *)
From Coq Require Import Strings.String.
From Verif Require Import Model.Base Model.BytesParser Model.Flags Model.Packet Model.Conn Model.Auth Model.Cmd Model.Stmt
  Model.Extract Model.Session Model.Event Model.EventBody.
Open Scope N_scope.

(** binlog.rs:20-30; the interval in nanoseconds ([Duration::as_nanos], a u128) *)
Record binlog_options := mk_bo {
  bo_filename : bytes; bo_pos : N; bo_server_id : N; bo_sids : list sid_range;
  bo_non_block : bool; bo_validate : bool; bo_heartbeat : N }.
(** binlog.rs:33-44 *)
Definition bo_new : binlog_options := mk_bo [] 4 0 [] false false 30000000000.
(** binlog.rs:46-82: the builders *)
Definition bo_set_pos (n : N) (o : binlog_options) : binlog_options :=
  mk_bo (bo_filename o) n (bo_server_id o) (bo_sids o) (bo_non_block o) (bo_validate o) (bo_heartbeat o).
Definition bo_set_filename (s : bytes) (o : binlog_options) : binlog_options :=
  mk_bo s (bo_pos o) (bo_server_id o) (bo_sids o) (bo_non_block o) (bo_validate o) (bo_heartbeat o).
Definition bo_set_server_id (n : N) (o : binlog_options) : binlog_options :=
  mk_bo (bo_filename o) (bo_pos o) n (bo_sids o) (bo_non_block o) (bo_validate o) (bo_heartbeat o).
Definition bo_sid (s : sid_range) (o : binlog_options) : binlog_options :=
  mk_bo (bo_filename o) (bo_pos o) (bo_server_id o) (bo_sids o ++ [s]) (bo_non_block o) (bo_validate o) (bo_heartbeat o).
Definition bo_add_sids (l : list sid_range) (o : binlog_options) : binlog_options :=
  mk_bo (bo_filename o) (bo_pos o) (bo_server_id o) (bo_sids o ++ l) (bo_non_block o) (bo_validate o) (bo_heartbeat o).
Definition bo_set_non_block (b : bool) (o : binlog_options) : binlog_options :=
  mk_bo (bo_filename o) (bo_pos o) (bo_server_id o) (bo_sids o) b (bo_validate o) (bo_heartbeat o).
Definition bo_set_validate (b : bool) (o : binlog_options) : binlog_options :=
  mk_bo (bo_filename o) (bo_pos o) (bo_server_id o) (bo_sids o) (bo_non_block o) b (bo_heartbeat o).
Definition bo_set_heartbeat (n : N) (o : binlog_options) : binlog_options :=
  mk_bo (bo_filename o) (bo_pos o) (bo_server_id o) (bo_sids o) (bo_non_block o) (bo_validate o) n.

(** binlog.rs:272-279; the connection is the state of [io] *)
Record binlog_stream := mk_stream {
  s_pv4 : parser_v4; s_validate : bool; s_completed : bool; s_non_block : bool }.

(** [get_var(..).await?.ok_or_else(..)?], binlog.rs:94-98 etc. *)
Definition get_required {V} (checks : bool) (from_col : option bytes -> res V) (name : bytes) (missing : error) : io V :=
  o <~ conn_get_var checks from_col name true ;;
  match o with Some v => iret v | None => ierr missing end.
(** binlog.rs:164-182 *)
Definition stream_request (gtid_mode : bytes) (slave_id : N) (o : binlog_options) : bytes :=
  if beqb gtid_mode (str "ON") then
    write_binlog_dump_gtid (bg_non_block (bo_non_block o)
      (bg_use_gtid (match bo_sids o with [] => false | _ => true end)
      (bg_add_sids (bo_sids o) (bg_set_pos (bo_pos o) (bg_set_filename (bo_filename o)
      (bg_set_server_id slave_id default_binlog_dump_gtid))))))
  else
    write_binlog_dump (bd_non_block (bo_non_block o) (bd_set_pos (trunc 32 (bo_pos o)) (bd_set_filename (bo_filename o)
      (bd_set_server_id slave_id default_binlog_dump)))).
(** binlog.rs:206-223: the fake rotate event that comes first; [msg] without its header byte.
    [msg.remaining() - 4] underflows (or [split_off] panics) on a shorter body *)
Definition check_rotate (checksum : bool) (msg : bytes) : res unit :=
  let '(r, body) := read_event_header msg in
  rbind r (fun eh =>
  match h_type eh with
  | EtRotate =>
      rbind (if checksum then rmap (fun n => fst (split_at n body)) (csub (blen body) 4) else Ok body) (fun body =>
      rmap (fun _ => tt) (fst (read_rotate body)))
  | _ => Err ECustom
  end).
(** binlog.rs:232-249: the format description event *)
Definition recv_fde (o : binlog_options) : io binlog_stream :=
  msg <~ recv_msg ;;
  match read_u8 msg with
  | (Ok _, msg) =>
      ' (pv4, _) <~ parse from_fde_bytes msg ;;
      iret (mk_stream pv4 (bo_validate o) false (bo_non_block o))
  | (Err e, _) => ierr e
  | (Panic p, _) => ipanic p
  | (Loop, _) => ilift Loop
  end.
(** binlog.rs:184-249 *)
Definition recv_stream_start (checksum : bool) (o : binlog_options) : io binlog_stream :=
  msg <~ recv_msg ;;
  match msg with
  | [] => ierr (EIncomplete None)
  | b :: rest =>
      if b2n b =? 0xff then server_error msg
      else if b2n b =? 0xfe then
        fun c =>
          (_ <~ parse (read_eof_packet (c_cap c)) msg ;;
           iret (mk_stream (mk_parser [] false) (bo_validate o) true (bo_non_block o))) c
      else if b2n b =? 0x00 then
        _ <~ ilift (check_rotate checksum rest) ;;
        recv_fde o
      else ierr EPacket
  end.
(** binlog.rs:90-249; the random UUID and the random id are parameters *)
Definition request_stream (checks : bool) (slave_uuid : bytes) (random_id : N) (o : binlog_options) : io binlog_stream :=
  master_id <~ get_required checks (non_null u32_from_text) (str "SERVER_ID") EEmptyResultSet ;;
  _ <~ conn_set_user_var checks (str "MASTER_HEARTBEAT_PERIOD") (to_col (AU64 (trunc 64 (bo_heartbeat o)))) ;;
  binlog_checksum <~ get_required checks (non_null string_from_text) (str "BINLOG_CHECKSUM") ECustom ;;
  _ <~ conn_set_user_var checks (str "MASTER_BINLOG_CHECKSUM") (to_col (AString binlog_checksum)) ;;
  gtid_mode <~ get_required checks (non_null string_from_text) (str "GTID_MODE") ECustom ;;
  server_uuid <~ get_required checks (non_null string_from_text) (str "SERVER_UUID") ECustom ;;
  _ <~ conn_set_user_var checks (str "SLAVE_UUID") (to_col (AString slave_uuid)) ;;
  let slave_id := if bo_server_id o =? 0 then random_id else bo_server_id o in
  _ <~ (_ <~ send_msg checks (write_register_slave (register_slave_new slave_id master_id)) true ;; recv_com_response) ;;
  _ <~ send_msg checks (stream_request gtid_mode slave_id o) true ;;
  recv_stream_start (beqb binlog_checksum (str "CRC32")) o.

(** binlog.rs:319-324 *)
Inductive stream_event := SeSingle (e : event) | SeUnsupported | SeEnd.
(** binlog.rs:297-316 *)
Definition recv_and_parse_event (crc : bytes -> N) (s : binlog_stream) : io stream_event :=
  msg <~ recv_msg ;;
  match msg with
  | [] => ierr (EIncomplete None)
  | header :: msg =>
      if s_non_block s && (b2n header =? 0xfe) then iret SeEnd
      else if negb (b2n header =? 0) then ierr EPacket
      else
        o <~ parse (parse_event crc (s_pv4 s) (s_validate s)) msg ;;
        iret (match o with Some e => SeSingle e | None => SeUnsupported end)
  end.
(** binlog.rs:284-295, the loop; [completed] is never assigned, so the stream itself does not change *)
Fixpoint next_event_loop (crc : bytes -> N) (fuel : nat) (s : binlog_stream) : io (option event) :=
  match fuel with
  | O => ilift Loop
  | S fuel =>
      e <~ recv_and_parse_event crc s ;;
      match e with
      | SeSingle e => iret (Some e)
      | SeUnsupported => next_event_loop crc fuel s
      | SeEnd => iret None
      end
  end.
Definition next_event (crc : bytes -> N) (s : binlog_stream) : io (option event) := fun c =>
  if s_completed s then (Ok None, c) else next_event_loop crc (S (sched_len (c_rd c))) s c.
