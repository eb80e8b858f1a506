(** * Model of mybinlog/src/mybinlog.rs: the command [dml] *)
From Coq Require Import Strings.String.
From Verif Require Import Model.Base Model.BytesParser Model.Flags Model.Conn Model.Auth Model.Fmt Model.Col Model.Row Model.Rows
  Model.Packet Model.Session Model.Event Model.Stream Model.Transform.
Open Scope N_scope.

(** mybinlog.rs:227-233 *)
Record table_meta := mk_meta { mt_db : bytes; mt_tbl : bytes; mt_metas : list column_meta; mt_defs : list column_def }.
(** mybinlog.rs:99-101; the hash map and hash set are only searched, inserted into and cleared *)
Record dml_state := mk_dml { dm_tbls : list (N * table_meta); dm_skip : list N; dm_rows : N }.
Definition find_table (id : N) (l : list (N * table_meta)) : option table_meta :=
  option_map snd (find (fun p => fst p =? id) l).
Definition skips (id : N) (l : list N) : bool := existsb (N.eqb id) l.
(** the options of the command; a regular expression is the predicate of the names it matches *)
Record dml_options := mk_do {
  do_until_now : bool; do_database : option (bytes -> bool); do_table : option (bytes -> bool); do_limit : N }.
Definition matches (f : option (bytes -> bool)) (name : bytes) : bool :=
  match f with Some f => f name | None => true end.

(** mybinlog.rs:221-225 *)
Definition key_exists (defs : list column_def) : bool :=
  existsb (fun d => contains (cd_flags d) CF_PRIMARY_KEY && contains (cd_flags d) CF_UNIQUE_KEY) defs.

(** mybinlog.rs:144-150, 171-177, 191-197: printing statements until the limit; [None] leaves the
    outer loop.  The counter is a usize; its overflow is not modelled. *)
Fixpoint print_stmts (limit n_rows : N) (l : list bytes) : list bytes * option N :=
  match l with
  | [] => ([], Some n_rows)
  | s :: l =>
      let n_rows := n_rows + 1 in
      if negb (limit =? 0) && (limit <=? n_rows) then ([s], None)
      else let '(out, r) := print_stmts limit n_rows l in (s :: out, r)
  end.
Definition print_counted (o : dml_options) (st : dml_state) (l : list bytes) : list bytes * option dml_state :=
  let '(out, r) := print_stmts (do_limit o) (dm_rows st) l in
  (out, option_map (mk_dml (dm_tbls st) (dm_skip st)) r).
(** mybinlog.rs:137-140: what to do with a known table that is not skipped *)
Definition with_table (st : dml_state) (id : N) (k : table_meta -> res (list bytes * option dml_state))
  : res (list bytes * option dml_state) :=
  if skips id (dm_skip st) then Ok ([], Some st)
  else match find_table id (dm_tbls st) with Some tm => k tm | None => Ok ([], Some st) end.
(** mybinlog.rs:163 *)
Definition no_key_note (tm : table_meta) (next_pos : N) : bytes :=
  str "-- Cannot generate update SQL for table " ++ mt_db tm ++ str "." ++ mt_tbl tm ++
  str " because no key column found. next_offset=" ++ fmt_n next_pos.

Section Dml.
  Variables fmt_f32 fmt_f64 : N -> bytes.
  Variable crc : bytes -> N.
  Variable checks : bool.
  Variable o : dml_options.

  (** mybinlog.rs:104-133, on the helper connection *)
  Definition dml_table_map (st : dml_state) (data : bytes) : io (list bytes * option dml_state) :=
    d <~ ilift (fst (read_table_map_data data)) ;;
    let id := tmd_table_id d in
    match find_table id (dm_tbls st), skips id (dm_skip st) with
    | None, false =>
        tm <~ ilift (table_map_of d) ;;
        if negb (matches (do_database o) (tm_schema_name tm)) || negb (matches (do_table o) (tm_table_name tm))
        then iret ([], Some (mk_dml (dm_tbls st) (id :: dm_skip st) (dm_rows st)))
        else
          _ <~ conn_init_db checks (tm_schema_name tm) ;;
          defs <~ conn_field_list checks (tm_table_name tm) (str "%") ;;
          iret ([], Some (mk_dml ((id, mk_meta (tm_schema_name tm) (tm_table_name tm) (tm_col_metas tm) defs) :: dm_tbls st)
                            (dm_skip st) (dm_rows st)))
    | _, _ => iret ([], Some st)
    end.
  (** mybinlog.rs:134-152 *)
  Definition dml_delete (st : dml_state) (data : bytes) : res (list bytes * option dml_state) :=
    rbind (fst (read_delete_rows_v2 data)) (fun d =>
    with_table st (rd2_table_id d) (fun tm =>
      rbind (rows_of d (mt_metas tm)) (fun rows =>
      rbind (sql_from_delete (mt_db tm) (mt_tbl tm) rows (mt_defs tm)) (fun q =>
      rmap (print_counted o st) (sql_list fmt_f32 fmt_f64 q))))).
  (** mybinlog.rs:153-180 *)
  Definition dml_update (st : dml_state) (next_pos : N) (data : bytes) : res (list bytes * option dml_state) :=
    rbind (fst (read_update_rows_v2 data)) (fun d =>
    with_table st (rd2_table_id d) (fun tm =>
      rbind (update_rows_of d (mt_metas tm)) (fun rows =>
      if negb (key_exists (mt_defs tm)) then Ok ([no_key_note tm next_pos], Some st)
      else
        rbind (sql_from_update (mt_db tm) (mt_tbl tm) rows (mt_defs tm)) (fun q =>
        rmap (print_counted o st) (sql_list fmt_f32 fmt_f64 q))))).
  (** mybinlog.rs:181-199 *)
  Definition dml_insert (st : dml_state) (data : bytes) : res (list bytes * option dml_state) :=
    rbind (fst (read_write_rows_v2 data)) (fun d =>
    with_table st (rd2_table_id d) (fun tm =>
      rbind (rows_of d (mt_metas tm)) (fun rows =>
      rbind (sql_from_insert (mt_db tm) (mt_tbl tm) rows (mt_defs tm)) (fun q =>
      rmap (print_counted o st) (sql_list fmt_f32 fmt_f64 q))))).
  (** mybinlog.rs:103-216: the lines printed for an event and the new state, or [None] to leave the loop;
      the state is the helper connection.  What goes to stderr is not modelled. *)
  Definition dml_event (st : dml_state) (e : event) : io (list bytes * option dml_state) :=
    match ev_kind e with
    | KTableMap => dml_table_map st (ev_data e)
    | KDeleteRowsV2 => ilift (dml_delete st (ev_data e))
    | KUpdateRowsV2 => ilift (dml_update st (h_next_pos (ev_header e)) (ev_data e))
    | KWriteRowsV2 => ilift (dml_insert st (ev_data e))
    | KRotate => iret ([], if do_until_now o then Some (mk_dml [] [] (dm_rows st)) else None)
    | _ => iret ([], Some st)
    end.
  (** mybinlog.rs:102-217: the result, the lines printed and the two connections *)
  Fixpoint dml_loop (fuel : nat) (s : binlog_stream) (st : dml_state) (c h : conn) : res unit * list bytes * conn * conn :=
    match fuel with
    | O => (Loop, [], c, h)
    | S fuel =>
        match next_event crc s c with
        | (Ok (Some e), c) =>
            match dml_event st e h with
            | (Ok (out, Some st), h) =>
                let '(r, out', c, h) := dml_loop fuel s st c h in (r, out ++ out', c, h)
            | (Ok (out, None), h) => (Ok tt, out, c, h)
            | (Err e, h) => (Err e, [], c, h)
            | (Panic p, h) => (Panic p, [], c, h)
            | (Loop, h) => (Loop, [], c, h)
            end
        | (Ok None, c) => (Ok tt, [], c, h)
        | (Err e, c) => (Err e, [], c, h)
        | (Panic p, c) => (Panic p, [], c, h)
        | (Loop, c) => (Loop, [], c, h)
        end
    end.
  (** mybinlog.rs:99-218 *)
  Definition dml_run (s : binlog_stream) (c h : conn) : res unit * list bytes * conn * conn :=
    dml_loop (S (sched_len (c_rd c))) s (mk_dml [] [] 0) c h.
  (** mybinlog.rs:81-219 *)
  Definition print_dmls (slave_uuid : bytes) (random_id : N) (filename : bytes) (non_block : bool) (c h : conn)
    : res unit * list bytes * conn * conn :=
    match request_stream checks slave_uuid random_id
            (bo_set_non_block non_block (bo_set_pos 4 (bo_set_filename filename bo_new))) c with
    | (Ok s, c) => dml_run s c h
    | (Err e, c) => (Err e, [], c, h)
    | (Panic p, c) => (Panic p, [], c, h)
    | (Loop, c) => (Loop, [], c, h)
    end.
End Dml.
