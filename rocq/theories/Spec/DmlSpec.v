(** * Independent specification: what the command [dml] prints

    The history of a log is a list of items.  The statements for a row event are those of C40/C41
    for the rows of C34-C36; here it is said which of them are printed. *)
From Coq Require Import Strings.String.
From Verif Require Import Model.Base Model.Auth Model.Flags Model.Conn Model.Fmt Model.Col Model.Row Model.Rows Model.Packet
  Model.Event Model.Stream Model.Transform Model.MyBinlog
  Spec.Wire Spec.Packets Spec.Values Spec.Framing Spec.Session Spec.Commands Spec.ResultSets Spec.BinlogSpec Spec.StreamSpec.
Open Scope N_scope.

Inductive row_change := RInsert | RUpdate | RDelete.
Inductive item :=
| IMap (id : N) (tm : table_map)                                        (** rows of table [id] follow *)
| IRows (change : row_change) (id : N) (d : rows_data_v2) (next_pos : N)   (** rows (version 2) of table [id] *)
| IRotate                                                               (** the log goes on in another file *)
| IOther.                                                               (** anything else *)
(** the item an event stands for *)
Definition rows_kind (c : row_change) : event_kind :=
  match c with RInsert => KWriteRowsV2 | RUpdate => KUpdateRowsV2 | RDelete => KDeleteRowsV2 end.
Definition rows_reader (c : row_change) : parser rows_data_v2 :=
  match c with RInsert => read_write_rows_v2 | RUpdate => read_update_rows_v2 | RDelete => read_delete_rows_v2 end.
Inductive means : event -> item -> Prop :=
| means_map h data d tm : fst (read_table_map_data data) = Ok d -> table_map_of d = Ok tm ->
    means (mk_event KTableMap h data) (IMap (tmd_table_id d) tm)
| means_rows c h data d : fst (rows_reader c data) = Ok d ->
    means (mk_event (rows_kind c) h data) (IRows c (rd2_table_id d) d (h_next_pos h))
| means_rotate h data : means (mk_event KRotate h data) IRotate
| means_other k h data : ~ In k [KTableMap; KWriteRowsV2; KUpdateRowsV2; KDeleteRowsV2; KRotate] ->
    means (mk_event k h data) IOther.

(** the last mapping of an id in the current file; [recent] is the history, latest item first *)
Fixpoint latest (recent : list item) (id : N) : option table_map :=
  match recent with
  | [] | IRotate :: _ => None
  | IMap i tm :: recent => if i =? id then Some tm else latest recent id
  | _ :: recent => latest recent id
  end.
(** the first one *)
Fixpoint earliest (recent : list item) (id : N) : option table_map :=
  match recent with
  | [] | IRotate :: _ => None
  | IMap i tm :: recent =>
      match earliest recent id with Some t => Some t | None => if i =? id then Some tm else None end
  | _ :: recent => earliest recent id
  end.
(** no id is given another table within a file *)
Fixpoint consistent (recent items : list item) : Prop :=
  match items with
  | [] => True
  | it :: items =>
      match it with
      | IMap id tm => match latest recent id with Some t => t = tm | None => True end
      | _ => True
      end /\ consistent (it :: recent) items
  end.

(** a line printed: a statement, or a note that there is none *)
Inductive line := LStmt (s : bytes) | LNote (s : bytes).
Definition text (l : line) : bytes := match l with LStmt s | LNote s => s end.
Fixpoint n_stmts (l : list line) : N :=
  match l with [] => 0 | LStmt _ :: l => 1 + n_stmts l | LNote _ :: l => n_stmts l end.

(** flagged both as part of the primary key and as unique (bits 1 and 2 of the flags) *)
Definition keyed (d : column_def) : bool := N.testbit (cd_flags d) 1 && N.testbit (cd_flags d) 2.

Section Printed.
  Variables fmt_f32 fmt_f64 : N -> bytes.
  (** the filters *)
  Variable passes : table_map -> bool.
  (** the columns of a table as the server reports them *)
  Variable defs_of : bytes -> bytes -> list column_def.

  (** the lines for a row event of the table *)
  Definition row_lines (c : row_change) (d : rows_data_v2) (next_pos : N) (tm : table_map) : res (list line) :=
    let db := tm_schema_name tm in let tbl := tm_table_name tm in let defs := defs_of db tbl in
    let stmts q := rmap (map LStmt) (rbind q (sql_list fmt_f32 fmt_f64)) in
    match c with
    | RInsert => rbind (rows_of d (tm_col_metas tm)) (fun rows => stmts (sql_from_insert db tbl rows defs))
    | RDelete => rbind (rows_of d (tm_col_metas tm)) (fun rows => stmts (sql_from_delete db tbl rows defs))
    | RUpdate => rbind (update_rows_of d (tm_col_metas tm)) (fun rows =>
        if existsb keyed defs then stmts (sql_from_update db tbl rows defs)
        else Ok [LNote (str "-- Cannot generate update SQL for table " ++ db ++ str "." ++ tbl ++
                        str " because no key column found. next_offset=" ++ fmt_n next_pos)])
    end.
  (** the lines for a history, given how ids are resolved *)
  Variable resolve : list item -> N -> option table_map.
  Fixpoint printed (recent items : list item) : res (list line) :=
    match items with
    | [] => Ok []
    | it :: items =>
        rbind (match it with
               | IRows c id d next_pos =>
                   match resolve recent id with
                   | Some tm => if passes tm then row_lines c d next_pos tm else Ok []
                   | None => Ok []
                   end
               | _ => Ok []
               end) (fun l => rmap (app l) (printed (it :: recent) items))
    end.
  (** the tables whose columns are asked for: at the first mapping in a file *)
  Fixpoint lookups (recent items : list item) : list table_map :=
    match items with
    | [] => []
    | it :: items =>
        match it with
        | IMap id tm => match resolve recent id with None => if passes tm then [tm] else [] | Some _ => [] end
        | _ => []
        end ++ lookups (it :: recent) items
    end.
End Printed.

(** the part of the history that counts: up to the first rotation, unless asked to go on *)
Fixpoint scope (until_now : bool) (items : list item) : list item :=
  match items with
  | [] => []
  | IRotate :: items => if until_now then IRotate :: scope until_now items else []
  | it :: items => it :: scope until_now items
  end.
(** [out] is [ls] cut off behind the [limit]-th statement if there are that many, 0 meaning no limit *)
Definition limited (limit : N) (ls out : list line) : Prop :=
  if (limit =? 0) || (n_stmts ls <? limit) then out = ls
  else n_stmts out = limit /\ exists before s rest, out = before ++ [LStmt s] /\ ls = out ++ rest.
(** the filters as given on the command line *)
Definition selected (o : dml_options) (tm : table_map) : bool :=
  match do_database o with Some f => f (tm_schema_name tm) | None => true end &&
  match do_table o with Some f => f (tm_table_name tm) | None => true end.

(** the run ends before the log does: the limit is reached, or a rotation *)
Definition stops_early (o : dml_options) (items : list item) (ls : list line) : bool :=
  negb (do_limit o =? 0) && (do_limit o <=? n_stmts ls) || (length (scope (do_until_now o) items) <? length items)%nat.

(** the helper connection: questions and answers about tables *)
Definition table_requests (cap : N) (tm : table_map) : list (bytes -> Prop) :=
  [asks cap (RqInitDb (tm_schema_name tm)); asks cap (RqFieldList (tm_table_name tm) (str "%"))].
Definition table_answer (cap : N) (defs : list column_def) (ms : list bytes) : Prop :=
  Forall (fun d => field_ok d /\ N.of_nat (length (cd_catalog d)) < 2 ^ 24) defs /\
  exists m1 m2, ok_message cap 0 m1 /\ eof_message cap m2 /\ ms = m1 :: map field_wire defs ++ [m2].
Definition asked (h h' : conn) (tms : list table_map) : Prop :=
  exists ms, commanded h h' ms /\ Forall2 (fun rq m => rq m) (flat_map (table_requests (c_cap h)) tms) ms.
Definition names_ok (tm : table_map) : Prop :=
  no_nul (tm_table_name tm) /\ (length (tm_table_name tm) <= 255)%nat /\ (length (tm_schema_name tm) <= 255)%nat.
(** the server answers every question about the tables, then [d] is left *)
Definition tables_answered (defs_of : bytes -> bytes -> list column_def) (h : conn) (tms : list table_map) (d : bytes) : Prop :=
  exists answers, Forall2 (fun tm ms => table_answer (c_cap h) (defs_of (tm_schema_name tm) (tm_table_name tm)) ms) tms answers /\
    Forall names_ok tms /\ accepting (c_ws h) /\ awaits h (concat answers) d.

(** ** Failures *)
(** [e] fails with [r] after the history [recent] *)
Definition failure {A} (x : res A) (r : res unit) : Prop :=
  match x with Ok _ => False | Err e => r = Err e | Panic p => r = Panic p | Loop => r = Loop end.
Inductive fails fmt_f32 fmt_f64 (passes : table_map -> bool) defs_of (recent : list item) : event -> res unit -> Prop :=
| fails_map h data r : failure (fst (read_table_map_data data)) r ->
    fails fmt_f32 fmt_f64 passes defs_of recent (mk_event KTableMap h data) r
| fails_metas h data d r : fst (read_table_map_data data) = Ok d -> earliest recent (tmd_table_id d) = None ->
    failure (table_map_of d) r -> fails fmt_f32 fmt_f64 passes defs_of recent (mk_event KTableMap h data) r
| fails_rows c h data r : failure (fst (rows_reader c data)) r ->
    fails fmt_f32 fmt_f64 passes defs_of recent (mk_event (rows_kind c) h data) r
| fails_row c h data d tm r : fst (rows_reader c data) = Ok d -> earliest recent (rd2_table_id d) = Some tm -> passes tm = true ->
    failure (row_lines fmt_f32 fmt_f64 defs_of c d (h_next_pos h) tm) r ->
    fails fmt_f32 fmt_f64 passes defs_of recent (mk_event (rows_kind c) h data) r.
(** the server refuses to tell the columns of a table *)
Inductive table_refusal (cap : N) (tm : table_map) : list (bytes -> Prop) -> list bytes -> error -> Prop :=
| refuses_db m e : err_message cap m e -> table_refusal cap tm [asks cap (RqInitDb (tm_schema_name tm))] [m] e
| refuses_table m1 m2 e : ok_message cap 0 m1 -> err_message cap m2 e ->
    table_refusal cap tm (table_requests cap tm) [m1; m2] e.

(** ** Runs *)
(** what a run does, given the lines to print and the tables to ask for *)
Definition runs fmt_f32 fmt_f64 (crc : bytes -> N) (checks : bool) (o : dml_options) (s : binlog_stream)
(defs_of : bytes -> bytes -> list column_def) (resolve : list item -> N -> option table_map)
  (items : list item) (evs : list event) (c : conn) (last : option error) (cx h : conn) (ls : list line) (d : bytes) : Prop :=
  let sc := scope (do_until_now o) items in
  exists out r c' h' done rest, dml_run fmt_f32 fmt_f64 crc checks o s c h = (r, map text out, c', h') /\
    limited (do_limit o) ls out /\ sc = done ++ rest /\ asked h h' (lookups (selected o) resolve [] done) /\
    ((do_limit o <> 0 /\ do_limit o <= n_stmts ls /\ r = Ok tt /\
        io_pulls (next_event crc s) (length done) c = (returned (firstn (length done) evs), c') /\
        exists before it lb, done = before ++ [it] /\
          printed fmt_f32 fmt_f64 (selected o) defs_of resolve [] before = Ok lb /\ n_stmts lb < do_limit o) \/
     ((do_limit o = 0 \/ n_stmts ls < do_limit o) /\ done = sc /\ delivered (c_rd h') = d /\
        (sc = items /\ r = match last with Some e => Err e | None => Ok tt end /\ c' = cx \/
         (length sc < length items)%nat /\ r = Ok tt /\
           io_pulls (next_event crc s) (S (length sc)) c = (returned (firstn (S (length sc)) evs), c')))).
Definition last_result (last : option error) : res (option event) := match last with None => Ok None | Some e => Err e end.
