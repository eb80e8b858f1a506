(** C44: the command [dml].  What a history means and what is printed for it: Spec/DmlSpec.v;
    the statements for the rows of an event: C41. *)
From Coq Require Import Strings.String.
From Verif Require Import Model.Base Model.BytesParser Model.Conn Model.Auth Model.Cmd Model.Col Model.Row Model.Rows Model.Packet Model.Event
  Model.Stream Model.Transform Model.MyBinlog
  Spec.Wire Spec.Packets Spec.Values Spec.Framing Spec.Session Spec.Commands Spec.ResultSets Spec.EventBodies Spec.BinlogValues
  Spec.BinlogSpec Spec.StreamSpec Spec.DmlSpec
  Proofs.CommandProofs Proofs.StreamProofs Proofs.DmlProofs.
Open Scope N_scope.

(** The statements printed are those for the row events of the selected tables in the current log, in order,
    cut off at the limit; every table is asked for once per log; an error of the stream ends the run with it. *)
Theorem C44_prints : forall fmt_f32 fmt_f64 crc checks o s defs_of items evs c last cx h ls d,
  io_pulls (next_event crc s) (S (length evs)) c = (returned evs ++ [last_result last], cx) ->
  Forall2 means evs items -> consistent [] (scope (do_until_now o) items) ->
  printed fmt_f32 fmt_f64 (selected o) defs_of latest [] (scope (do_until_now o) items) = Ok ls ->
  tables_answered defs_of h (lookups (selected o) latest [] (scope (do_until_now o) items)) d ->
  runs fmt_f32 fmt_f64 crc checks o s defs_of latest items evs c last cx h ls d.
Proof. exact run_latest. Qed.
Print Assumptions C44_prints.
(** In general, an id stands for the first table it is given in a log. *)
Theorem C44_prints_first : forall fmt_f32 fmt_f64 crc checks o s defs_of items evs c last cx h ls d,
  io_pulls (next_event crc s) (S (length evs)) c = (returned evs ++ [last_result last], cx) ->
  Forall2 means evs items ->
  printed fmt_f32 fmt_f64 (selected o) defs_of earliest [] (scope (do_until_now o) items) = Ok ls ->
  tables_answered defs_of h (lookups (selected o) earliest [] (scope (do_until_now o) items)) d ->
  runs fmt_f32 fmt_f64 crc checks o s defs_of earliest items evs c last cx h ls d.
Proof. exact run_first. Qed.
Print Assumptions C44_prints_first.
(** one statement per row; updates only if a column is flagged both primary and unique *)
Theorem C44_rows : forall fmt_f32 fmt_f64 defs_of c d pos tm ls, row_lines fmt_f32 fmt_f64 defs_of c d pos tm = Ok ls ->
  match c with
  | RUpdate => exists u, update_rows_of d (tm_col_metas tm) = Ok u /\
      (existsb keyed (defs_of (tm_schema_name tm) (tm_table_name tm)) = true ->
       exists stmts, ls = map LStmt stmts /\ length stmts = length (u_rows u))
  | _ => exists rows stmts, rows_of d (tm_col_metas tm) = Ok rows /\ ls = map LStmt stmts /\ length stmts = length (r_rows rows)
  end.
Proof. exact row_lines_count. Qed.
Print Assumptions C44_rows.
(** The whole command in non-blocking mode, from the bytes of the two connections: the log is
    requested from position 4 of the file, and the lines are printed until the server's EOF. *)
Theorem C44_command : forall fmt_f32 fmt_f64 crc checks o defs_of cap uuid slave_id filename master_id algorithm mode qs ans sum
    m1 m2 fd es m items c h ls d dh,
  (forall bs, crc bs < 2 ^ 32) -> slave_id < 2 ^ 32 ->
  length uuid = 36%nat -> N.of_nat (length filename) < 2 ^ 30 ->
  let opts := bo_set_non_block true (bo_set_pos 4 (bo_set_filename filename bo_new)) in
  set_up cap opts uuid slave_id master_id algorithm mode qs ans -> (sum = true <-> algorithm = str "CRC32") ->
  rotate_message sum m1 -> description_message fd m2 ->
  let sums := p_checksum (described_parser fd) in
  Forall (log_event_ok sums) es -> Forall2 means (reported sums es) items -> eof_message cap m ->
  c_cap c = cap -> accepting (c_ws c) -> awaits c ((ans ++ [m1; m2]) ++ map (event_message crc sums) es ++ [m]) d ->
  consistent [] (scope (do_until_now o) items) ->
  printed fmt_f32 fmt_f64 (selected o) defs_of latest [] (scope (do_until_now o) items) = Ok ls ->
  tables_answered defs_of h (lookups (selected o) latest [] (scope (do_until_now o) items)) dh ->
  exists out c' h' ms, print_dmls fmt_f32 fmt_f64 crc checks o uuid slave_id filename true c h = (Ok tt, map text out, c', h') /\
    limited (do_limit o) ls out /\
    (exists done rest, scope (do_until_now o) items = done ++ rest /\ asked h h' (lookups (selected o) latest [] done)) /\
    commanded c c' ms /\ Forall2 (fun rq m => rq m) (qs ++ [asks cap (expected_dump (beqb mode (str "ON")) slave_id opts)]) ms.
Proof. exact print_all. Qed.
Print Assumptions C44_command.
(** In either mode, if the server closes the connection after the events: the same lines, and then an error
    unless the run was over before. *)
Theorem C44_command_cut : forall fmt_f32 fmt_f64 crc checks o defs_of cap uuid slave_id filename nb master_id algorithm mode qs ans sum
    m1 m2 fd es items c h ls d dh,
  (forall bs, crc bs < 2 ^ 32) -> slave_id < 2 ^ 32 ->
  length uuid = 36%nat -> N.of_nat (length filename) < 2 ^ 30 ->
  let opts := bo_set_non_block nb (bo_set_pos 4 (bo_set_filename filename bo_new)) in
  set_up cap opts uuid slave_id master_id algorithm mode qs ans -> (sum = true <-> algorithm = str "CRC32") ->
  rotate_message sum m1 -> description_message fd m2 ->
  let sums := p_checksum (described_parser fd) in
  Forall (log_event_ok sums) es -> Forall2 means (reported sums es) items -> no_message d ->
  c_cap c = cap -> accepting (c_ws c) -> awaits c ((ans ++ [m1; m2]) ++ map (event_message crc sums) es) d ->
  consistent [] (scope (do_until_now o) items) ->
  printed fmt_f32 fmt_f64 (selected o) defs_of latest [] (scope (do_until_now o) items) = Ok ls ->
  tables_answered defs_of h (lookups (selected o) latest [] (scope (do_until_now o) items)) dh ->
  exists out c' h' ms, print_dmls fmt_f32 fmt_f64 crc checks o uuid slave_id filename nb c h =
      (if stops_early o items ls then Ok tt else Err EIO, map text out, c', h') /\
    limited (do_limit o) ls out /\
    (exists done rest, scope (do_until_now o) items = done ++ rest /\ asked h h' (lookups (selected o) latest [] done)) /\
    commanded c c' ms /\ Forall2 (fun rq m => rq m) (qs ++ [asks cap (expected_dump (beqb mode (str "ON")) slave_id opts)]) ms.
Proof. exact print_cut. Qed.
Print Assumptions C44_command_cut.
(** an event that cannot be decoded ends the run with the error, behind the lines before it *)
Theorem C44_failure : forall fmt_f32 fmt_f64 crc checks o s defs_of items evs e c cx h ls d r,
  io_pulls (next_event crc s) (S (length evs)) c = (returned (evs ++ [e]), cx) ->
  Forall2 means evs items -> (In IRotate items -> do_until_now o = true) ->
  printed fmt_f32 fmt_f64 (selected o) defs_of earliest [] items = Ok ls -> (do_limit o = 0 \/ n_stmts ls < do_limit o) ->
  tables_answered defs_of h (lookups (selected o) earliest [] items) d ->
  fails fmt_f32 fmt_f64 (selected o) defs_of (rev items) e r ->
  exists h', dml_run fmt_f32 fmt_f64 crc checks o s c h = (r, map text ls, cx, h') /\
    asked h h' (lookups (selected o) earliest [] items) /\ delivered (c_rd h') = d.
Proof. exact run_failure. Qed.
Print Assumptions C44_failure.
(** so does a table the server does not know (any more) *)
Theorem C44_unknown_table : forall fmt_f32 fmt_f64 crc checks o s defs_of items evs h0 data dd tm c cx h ls d d' e qs ps ans,
  io_pulls (next_event crc s) (S (length evs)) c = (returned (evs ++ [mk_event KTableMap h0 data]), cx) ->
  Forall2 means evs items -> (In IRotate items -> do_until_now o = true) ->
  printed fmt_f32 fmt_f64 (selected o) defs_of earliest [] items = Ok ls -> (do_limit o = 0 \/ n_stmts ls < do_limit o) ->
  fst (read_table_map_data data) = Ok dd -> table_map_of dd = Ok tm ->
  earliest (rev items) (tmd_table_id dd) = None -> selected o tm = true -> names_ok tm ->
  tables_answered defs_of h (lookups (selected o) earliest [] items) d' ->
  table_refusal (c_cap h) tm qs ps e -> messages_wire ps ans -> d' = ans ++ d ->
  exists h', dml_run fmt_f32 fmt_f64 crc checks o s c h = (Err e, map text ls, cx, h') /\
    (exists ms, commanded h h' ms /\
       Forall2 (fun rq m => rq m) (flat_map (table_requests (c_cap h)) (lookups (selected o) earliest [] items) ++ qs) ms) /\
    delivered (c_rd h') = d.
Proof. exact run_refused. Qed.
Print Assumptions C44_unknown_table.
(** Finding: updates of a table without a column flagged both primary and unique - so of every table whose only
    key is its primary key - are not printed, although the statement would be generated from the primary key (C41). *)
Theorem C44_update_refuted : forall fmt_f32 fmt_f64 defs_of d pos tm ls,
  (forall x, In x (defs_of (tm_schema_name tm) (tm_table_name tm)) ->
     ~ (N.testbit (cd_flags x) 1 = true /\ N.testbit (cd_flags x) 2 = true)) ->
  row_lines fmt_f32 fmt_f64 defs_of RUpdate d pos tm = Ok ls -> exists note, ls = [LNote note] /\ n_stmts ls = 0.
Proof. exact update_note. Qed.
Print Assumptions C44_update_refuted.
(** Finding: a table id given to another table within a log - as ids are, from 1 on, when the server is
    restarted without a rotation - still stands for the first table. *)
Theorem C44_remap_refuted : forall fmt_f32 fmt_f64 crc checks o s defs_of e1 e2 e3 id t1 t2 ch d pos c cx h ls dh,
  do_limit o = 0 -> selected o t1 = true ->
  io_pulls (next_event crc s) 4 c = (returned [e1; e2; e3] ++ [Ok None], cx) ->
  means e1 (IMap id t1) -> means e2 (IMap id t2) -> means e3 (IRows ch id d pos) ->
  row_lines fmt_f32 fmt_f64 defs_of ch d pos t1 = Ok ls -> tables_answered defs_of h [t1] dh ->
  exists c' h', dml_run fmt_f32 fmt_f64 crc checks o s c h = (Ok tt, map text ls, c', h') /\ asked h h' [t1].
Proof. exact remapped. Qed.
Print Assumptions C44_remap_refuted.
(** Finding: nothing is printed for row events of version 1 (servers before 5.6) *)
Theorem C44_old_rows_refuted : forall fmt_f32 fmt_f64 crc checks o s evs c cx h,
  io_pulls (next_event crc s) (S (length evs)) c = (returned evs ++ [Ok None], cx) -> accepting (c_ws h) ->
  Forall (fun e => In (ev_kind e) [KWriteRowsV1; KUpdateRowsV1; KDeleteRowsV1]) evs ->
  exists h', dml_run fmt_f32 fmt_f64 crc checks o s c h = (Ok tt, [], cx, h') /\ asked h h' [].
Proof. exact old_rows. Qed.
Print Assumptions C44_old_rows_refuted.

(** *** Examples *)
(** tables t (BIGINT key, TINYINT) and u; id 9 is given to t, then to u, then - in the next log - to u again *)
Definition ex_types : list sql_type := [SBigint; STinyint].
Definition ex_map (name : bytes) : bytes := wle 6 9 ++ wle 2 1 ++ table_map_bytes (str "d") name ex_types [x00].
Definition ex_rows (rows : bytes) : bytes := wle 6 9 ++ wle 2 1 ++ wle 2 2 ++ wlenenc 2 ++ [xff] ++ rows.
Definition ex_log : list log_event :=
  [mk_log_event 1 19 2 300 0 (ex_map (str "t"));
   mk_log_event 1 30 2 400 0 (ex_rows ([xfc] ++ wle 8 7 ++ [x05] ++ [xfe] ++ wle 8 8));
   mk_log_event 1 31 2 500 0 (wle 6 9 ++ wle 2 1 ++ wle 2 2 ++ wlenenc 2 ++ [xff; xff] ++ [xfc] ++ wle 8 7 ++ [x05] ++ [xfc] ++ wle 8 7 ++ [x06]);
   mk_log_event 1 19 2 600 0 (ex_map (str "u"));
   mk_log_event 1 32 2 700 0 (ex_rows ([xfc] ++ wle 8 7 ++ [x05]));
   mk_log_event 1 4 2 800 0 (wle 8 4 ++ str "bin.2");
   mk_log_event 1 19 2 300 0 (ex_map (str "u"));
   mk_log_event 1 32 2 400 0 (ex_rows ([xfc] ++ wle 8 7 ++ [x05]))].
Definition ex_field (name : bytes) (flags : N) (ty : column_type) : column_def :=
  mk_cd (str "def") [] [] [] name [] 63 20 ty flags 0 [].
Definition ex_defs (db tbl : bytes) : list column_def := [ex_field (str "id") 3 TLongLong; ex_field (str "n") 0 TTiny].
Definition ex_answer (tbl : bytes) : list bytes :=
  ok_wire 0x200 0 0 0 2 0 [] [] :: map field_wire (ex_defs (str "d") tbl) ++ [eof_wire 0x200 0 2].
Definition ex_stream : binlog_stream := mk_stream (mk_parser [] false) true false true.
Definition ex_source : conn := mk_conn (chunks (map (event_message crc32 false) ex_log ++ [eof_wire 0x200 0 2])) [] [] 0x200 0 0.
Definition ex_helper : conn := mk_conn (chunks (ex_answer (str "t") ++ ex_answer (str "u"))) [] [] 0x200 0 0.
Definition no_float (n : N) : bytes := [].
Definition ex_run (o : dml_options) : res unit * list bytes :=
  fst (fst (dml_run no_float no_float crc32 true o ex_stream ex_source ex_helper)).
(** the delete behind the second mapping is printed for t (the finding), the update is not (the other finding) *)
Example C44_example :
  ex_run (mk_do true None None 0) =
    (Ok tt,
     [str "INSERT INTO `d`.`t` (`id`,`n`) VALUES (7,5)"; str "INSERT INTO `d`.`t` (`id`,`n`) VALUES (8,null)";
      str "-- Cannot generate update SQL for table d.t because no key column found. next_offset=500";
      str "DELETE FROM `d`.`t` WHERE `id` = 7"; str "DELETE FROM `d`.`u` WHERE `id` = 7"]) /\
  length (snd (ex_run (mk_do false None None 0))) = 4%nat /\
  snd (ex_run (mk_do true None None 1)) = [str "INSERT INTO `d`.`t` (`id`,`n`) VALUES (7,5)"] /\
  snd (ex_run (mk_do true None (Some (beqb (str "z"))) 0)) = [].
Proof. vm_compute. repeat split. Qed.
(** the hypotheses are met *)
Definition ex_tm (name : bytes) : table_map := mk_table_map (str "d") name [MLongLong; MTiny] [x00].
Definition ex_items : list item :=
  [IMap 9 (ex_tm (str "t"));
   IRows RInsert 9 (mk_rd2 9 1 2 (wlenenc 2 ++ [xff] ++ [xfc] ++ wle 8 7 ++ [x05] ++ [xfe] ++ wle 8 8)) 400;
   IRows RUpdate 9 (mk_rd2 9 1 2 (wlenenc 2 ++ [xff; xff] ++ [xfc] ++ wle 8 7 ++ [x05] ++ [xfc] ++ wle 8 7 ++ [x06])) 500;
   IMap 9 (ex_tm (str "u"));
   IRows RDelete 9 (mk_rd2 9 1 2 (wlenenc 2 ++ [xff] ++ [xfc] ++ wle 8 7 ++ [x05])) 700;
   IRotate;
   IMap 9 (ex_tm (str "u"));
   IRows RDelete 9 (mk_rd2 9 1 2 (wlenenc 2 ++ [xff] ++ [xfc] ++ wle 8 7 ++ [x05])) 400].
Example C44_example_meets :
  fst (io_pulls (next_event crc32 ex_stream) 9 ex_source) = returned (reported false ex_log) ++ [last_result None] /\
  length (reported false ex_log) = 8%nat /\
  Forall2 means (reported false ex_log) ex_items /\
  tables_answered ex_defs ex_helper (lookups (selected (mk_do true None None 0)) earliest [] ex_items) [] /\
  map tm_table_name (lookups (selected (mk_do true None None 0)) earliest [] ex_items) = [str "t"; str "u"] /\
  (exists ls, printed no_float no_float (selected (mk_do true None None 0)) ex_defs earliest [] ex_items = Ok ls /\ length ls = 5%nat) /\
  ~ consistent [] ex_items /\ consistent [] (firstn 3 ex_items ++ skipn 5 ex_items).
Proof.
  split; [vm_compute; reflexivity|]. split; [reflexivity|]. split.
  { assert (R : forall c h data d p, fst (rows_reader c data) = Ok d -> rd2_table_id d = 9 -> h_next_pos h = p ->
      means (mk_event (rows_kind c) h data) (IRows c 9 d p)).
    { intros c h data d p E <- <-. constructor. exact E. }
    assert (T : forall h data d tm, fst (read_table_map_data data) = Ok d -> table_map_of d = Ok tm -> tmd_table_id d = 9 ->
      means (mk_event KTableMap h data) (IMap 9 tm)).
    { intros h data d tm E1 E2 <-. constructor; assumption. }
    unfold ex_items. apply Forall2_cons; [eapply T; [vm_compute; reflexivity|vm_compute; reflexivity|reflexivity]|].
    apply Forall2_cons; [apply (R RInsert); vm_compute; reflexivity|].
    apply Forall2_cons; [apply (R RUpdate); vm_compute; reflexivity|].
    apply Forall2_cons; [eapply T; [vm_compute; reflexivity|vm_compute; reflexivity|reflexivity]|].
    apply Forall2_cons; [apply (R RDelete); vm_compute; reflexivity|].
    apply Forall2_cons; [apply means_rotate|].
    apply Forall2_cons; [eapply T; [vm_compute; reflexivity|vm_compute; reflexivity|reflexivity]|].
    apply Forall2_cons; [apply (R RDelete); vm_compute; reflexivity|]. apply Forall2_nil. }
  split.
  { exists [ex_answer (str "t"); ex_answer (str "u")]. split; [|split; [|split]].
    - assert (X : forall t, table_answer 0x200 (ex_defs (str "d") t) (ex_answer t)).
      { intros t. split.
        - repeat constructor; reflexivity.
        - exists (ok_wire 0x200 0 0 0 2 0 [] []), (eof_wire 0x200 0 2). split; [constructor; reflexivity|].
          split; [constructor; reflexivity|reflexivity]. }
      constructor; [apply X|]. constructor; [apply X|constructor].
    - repeat constructor; cbn; unfold no_nul; cbn; intuition discriminate.
    - exact I.
    - apply chunks_await. repeat constructor. }
  split; [reflexivity|]. split; [eexists; split; vm_compute; reflexivity|]. split.
  - intros (_ & _ & _ & H & _). vm_compute in H. discriminate H.
  - cbn. repeat split.
Qed.
