(** C55: replaying the statements generated from a log.  The engine: Spec/Replay.v; logs: Spec/ReplayLog.v. *)
From Coq Require Import Strings.String.
From Coq Require Import List NArith ZArith Lia Arith Bool.
From Verif Require Import Model.Base Model.BytesParser Model.Auth Model.Conn Model.Cmd Model.Fmt Model.Col Model.Row Model.Rows Model.Packet Model.Event
  Model.Stream Model.Transform Model.MyBinlog
  Spec.Wire Spec.Packets Spec.Values Spec.Framing Spec.Session Spec.Commands Spec.ResultSets Spec.EventBodies Spec.BinlogValues Spec.BinlogSpec Spec.StreamSpec Spec.SqlSpec Spec.Replay Spec.DmlSpec Spec.ReplayLog
  Proofs.BaseLemmas Proofs.SqlProofs Proofs.SqlStmtProofs Proofs.SqlFindings Proofs.DmlProofs Proofs.ReplayProofs Proofs.ReplayLogProofs.
Import ListNotations.
Open Scope N_scope.

(** Run against the table as it was, the statements generated for the rows of an event leave the table as it was after
    the event.  Nothing else in the database changes. *)
Theorem C55_inserts : forall fmt_f32 fmt_f64 esc db tbl defs sch d1 d2 r cs rows rows',
  plain_name db /\ plain_name tbl -> describes defs sch -> Forall (fun t => is_table db tbl t = false) d1 ->
  says_inserts fmt_f32 fmt_f64 esc defs r cs -> defs <> [] -> history (sound defs sch) rows cs rows' ->
  exists stmts, rbind (sql_from_insert db tbl r defs) (sql_list fmt_f32 fmt_f64) = Ok stmts /\
    run_script esc (d1 ++ mk_table db tbl sch rows :: d2) stmts = Some (d1 ++ mk_table db tbl sch rows' :: d2).
Proof. intros until rows'. intros H1 H2 H3 H4 H5 H6. exact (inserts_replayed fmt_f32 fmt_f64 esc db tbl defs sch d1 d2 H1 H2 H3 r cs rows rows' H4 H5 H6). Qed.
Print Assumptions C55_inserts.
Theorem C55_deletes : forall fmt_f32 fmt_f64 esc db tbl defs sch d1 d2 r cs rows rows',
  plain_name db /\ plain_name tbl -> describes defs sch -> Forall (fun t => is_table db tbl t = false) d1 ->
  says_deletes fmt_f32 fmt_f64 esc defs r cs -> existsb is_key defs = true -> history (sound defs sch) rows cs rows' ->
  exists stmts, rbind (sql_from_delete db tbl r defs) (sql_list fmt_f32 fmt_f64) = Ok stmts /\
    run_script esc (d1 ++ mk_table db tbl sch rows :: d2) stmts = Some (d1 ++ mk_table db tbl sch rows' :: d2).
Proof. intros until rows'. intros H1 H2 H3 H4 H5 H6. exact (deletes_replayed fmt_f32 fmt_f64 esc db tbl defs sch d1 d2 H1 H2 H3 r cs rows rows' H4 H5 H6). Qed.
Print Assumptions C55_deletes.
Theorem C55_updates : forall fmt_f32 fmt_f64 esc db tbl defs sch d1 d2 u cs rows rows',
  plain_name db /\ plain_name tbl -> describes defs sch -> Forall (fun t => is_table db tbl t = false) d1 ->
  says_updates fmt_f32 fmt_f64 esc defs u cs -> existsb is_key defs = true -> history (sound defs sch) rows cs rows' ->
  exists stmts, rbind (sql_from_update db tbl u defs) (sql_list fmt_f32 fmt_f64) = Ok stmts /\
    run_script esc (d1 ++ mk_table db tbl sch rows :: d2) stmts = Some (d1 ++ mk_table db tbl sch rows' :: d2).
Proof. intros until rows'. intros H1 H2 H3 H4 H5 H6. exact (updates_replayed fmt_f32 fmt_f64 esc db tbl defs sch d1 d2 H1 H2 H3 u cs rows rows' H4 H5 H6). Qed.
Print Assumptions C55_updates.

(** A whole log, any number of tables: the printed lines are statements, and running them in order turns the
    database before the log into the database after it, as far as the selected tables are concerned. *)
Theorem C55_log : forall fmt_f32 fmt_f64 esc passes defs_of items d d',
  logged_history fmt_f32 fmt_f64 esc passes defs_of [] items d d' ->
  exists stmts, printed fmt_f32 fmt_f64 passes defs_of latest [] items = Ok (map LStmt stmts) /\ run_script esc d stmts = Some d'.
Proof. intros fmt_f32 fmt_f64 esc passes defs_of items d d'. apply log_replayed. Qed.
Print Assumptions C55_log.
(** The command itself, from the bytes of its two connections: its output, run as a script, reproduces the changes. *)
Theorem C55_command : forall fmt_f32 fmt_f64 crc checks o defs_of cap uuid slave_id filename master_id algorithm mode qs ans sum
    m1 m2 fd es m items c h d dh esc before after,
  (forall bs, crc bs < 2 ^ 32) -> slave_id < 2 ^ 32 -> length uuid = 36%nat -> N.of_nat (length filename) < 2 ^ 30 ->
  let opts := bo_set_non_block true (bo_set_pos 4 (bo_set_filename filename bo_new)) in
  set_up cap opts uuid slave_id master_id algorithm mode qs ans -> (sum = true <-> algorithm = str "CRC32") ->
  rotate_message sum m1 -> description_message fd m2 ->
  let sums := p_checksum (described_parser fd) in
  Forall (log_event_ok sums) es -> Forall2 means (reported sums es) items -> eof_message cap m ->
  c_cap c = cap -> accepting (c_ws c) -> awaits c ((ans ++ [m1; m2]) ++ map (event_message crc sums) es ++ [m]) d ->
  consistent [] (scope (do_until_now o) items) -> do_limit o = 0 ->
  logged_history fmt_f32 fmt_f64 esc (selected o) defs_of [] (scope (do_until_now o) items) before after ->
  tables_answered defs_of h (lookups (selected o) latest [] (scope (do_until_now o) items)) dh ->
  exists out c' h', print_dmls fmt_f32 fmt_f64 crc checks o uuid slave_id filename true c h = (Ok tt, out, c', h') /\
    run_script esc before out = Some after.
Proof.
  intros until after. intros Hcrc Hid Hu Hf opts Hset Hsum Hm1 Hm2 sums Hes Hmean Hm Hcap Hacc Haw Hcons Hlim Hlog Htab.
  destruct (log_replayed _ _ _ _ _ _ _ _ _ Hlog) as (stmts & P & R).
  destruct (print_all fmt_f32 fmt_f64 crc checks o defs_of cap uuid slave_id filename master_id algorithm mode qs ans sum m1 m2 fd es m items c h
    (map LStmt stmts) d dh Hcrc Hid Hu Hf Hset Hsum Hm1 Hm2 Hes Hmean Hm Hcap Hacc Haw Hcons P Htab) as (out & c' & h' & ms & E & L & _).
  exists (map text out), c', h'. split; [exact E|]. unfold limited in L. rewrite Hlim in L. cbn in L. subst out.
  rewrite map_map. cbn [text]. rewrite map_id. exact R.
Qed.
Print Assumptions C55_command.

(** ** What is not reproduced *)
(** Finding: a row whose key holds a NULL (a UNIQUE key allows it) is not found again; the table stays as it is. *)
Theorem C55_null_key_refuted : forall esc db tbl defs sch d1 d2 xs rows s,
  describes defs sch -> Forall (fun t => is_table db tbl t = false) d1 -> existsb is_key defs = true -> typed sch xs ->
  In VNull (key_of (map is_key defs) xs) ->
  deletes esc db tbl defs xs s \/ (exists xs', typed sch xs' /\ updates esc db tbl defs defs xs xs' s) ->
  run_statement esc (d1 ++ mk_table db tbl sch rows :: d2) s = Some (d1 ++ mk_table db tbl sch rows :: d2).
Proof.
  intros esc db tbl defs sch d1 d2 xs rows s (E & D & _) F K T H [(l & C & L)|(xs' & T' & l & l' & C & C' & L)]; destruct (cells _ _ _ C) as (E1 & L1 & _);
    assert (M : forall r, meets sch (map (fun q => (c_name q, snd q)) (key_cells l xs)) r = false) by (intros r; apply meets_null; [exact L1|rewrite E1; exact H]);
    unfold run_statement; rewrite L.
  - rewrite (delete_parsed _ _ _ (keys_some _ _ _ C K) (key_literals _ _ _ C)). apply executed; [exact F|reflexivity|].
    cbn [change_rows]. rewrite (keys_resolved sch defs E D xs l C T). f_equal. induction rows as [|r rows IH]; [reflexivity|]. cbn [filter]. rewrite M. cbn [negb]. f_equal. exact IH.
  - rewrite (update_parsed _ _ _ _ (named_some _ _ _ C' (keyed_defs _ K)) (keys_some _ _ _ C K) (named_literals _ _ _ C') (key_literals _ _ _ C)).
    apply executed; [exact F|reflexivity|]. cbn [change_rows]. rewrite (keys_resolved sch defs E D xs l C T). destruct (cells _ _ _ C') as (E2 & L2 & _).
    rewrite <- (cells_named l' xs' L2). rewrite resolved; [|rewrite E; exact D|exact (cells_ok sch _ _ _ _ C' T' E (incl_refl _))].
    f_equal. induction rows as [|r rows IH]; [reflexivity|]. cbn [map]. rewrite M. f_equal. exact IH.
Qed.
Print Assumptions C55_null_key_refuted.
(** Finding: the statement for a deleted row of a table without a key is not SQL. *)
Theorem C55_no_key_refuted : forall fmt_f32 fmt_f64 esc db tbl r defs xss d,
  plain_name db -> plain_name tbl -> Forall (fun c => plain_name (cd_name c)) defs -> Forall (fun c => is_key c = false) defs ->
  first_present (length defs) (length defs) (r_present_bitmap r) ->
  Forall2 (row_means fmt_f32 fmt_f64 esc defs) (r_rows r) xss -> r_rows r <> [] ->
  exists stmts, rbind (sql_from_delete db tbl r defs) (sql_list fmt_f32 fmt_f64) = Ok stmts /\ run_script esc d stmts = None.
Proof.
  intros fmt_f32 fmt_f64 esc db tbl r defs xss d N1 N2 N3 K P F Hr.
  destruct (delete_no_key fmt_f32 fmt_f64 esc db tbl r defs (length defs) xss N1 N2 N3 K P) as (q & stmts & Q1 & Q2 & L & A).
  { clear - F. induction F; constructor; [apply full_row; assumption|assumption]. }
  exists stmts. rewrite Q1. split; [exact Q2|]. destruct stmts as [|s stmts]; [destruct (r_rows r); [congruence|discriminate]|].
  apply Forall_inv in A. cbn [run_script]. unfold run_statement. rewrite A. reflexivity.
Qed.
Print Assumptions C55_no_key_refuted.

(** *** Examples *)
Definition no_float (n : N) : bytes := [].
Definition col (name : bytes) (flags : N) (ty : column_type) : column_def := mk_cd (str "def") [] [] [] name [] 63 20 ty flags 0 [].
(** t (id BIGINT with both key flags, n TINYINT) *)
Definition ex_defs (db tbl : bytes) : list column_def := [col (str "id") 7 TLongLong; col (str "n") 0 TTiny].
Definition ex_sch : schema := [(str "id", KInt); (str "n", KInt)].
Definition ex_t (name : bytes) : table_map := mk_table_map (str "d") name [MLongLong; MTiny] [x00].
(** two rows are inserted, one is updated, one deleted; rows of the table v are left out *)
Definition ex_items : list item :=
  [IMap 9 (ex_t (str "t"));
   IRows RInsert 9 (mk_rd2 9 1 2 (wlenenc 2 ++ [xff] ++ [xfc] ++ wle 8 7 ++ [x05] ++ [xfe] ++ wle 8 8)) 400;
   IMap 4 (ex_t (str "v"));
   IRows RDelete 4 (mk_rd2 4 1 2 (wlenenc 2 ++ [xff] ++ [xfc] ++ wle 8 7 ++ [x05])) 450;
   IRows RUpdate 9 (mk_rd2 9 1 2 (wlenenc 2 ++ [xff; xff] ++ [xfc] ++ wle 8 7 ++ [x05] ++ [xfc] ++ wle 8 7 ++ [xff])) 500;
   IRows RDelete 9 (mk_rd2 9 1 2 (wlenenc 2 ++ [xff] ++ [xfe] ++ wle 8 8)) 600].
Definition ex_pass (tm : table_map) : bool := beqb (tm_table_name tm) (str "t").
Definition ex_db (rows : list row) : database := [mk_table (str "d") (str "s") ex_sch []] ++ mk_table (str "d") (str "t") ex_sch rows :: [].
Definition ex_script : list bytes :=
  [str "INSERT INTO `d`.`t` (`id`,`n`) VALUES (7,5)"; str "INSERT INTO `d`.`t` (`id`,`n`) VALUES (8,null)";
   str "UPDATE `d`.`t` SET `id` = 7, `n` = -1 WHERE `id` = 7"; str "DELETE FROM `d`.`t` WHERE `id` = 8"].
Example C55_example :
  let before := ex_db [[VInt 1; VNull]] in let after := ex_db [[VInt 1; VNull]; [VInt 7; VInt (-1)]] in
  logged_history no_float no_float true ex_pass ex_defs [] ex_items before after /\
  printed no_float no_float ex_pass ex_defs latest [] ex_items = Ok (map LStmt ex_script) /\
  run_script true before ex_script = Some after.
Proof.
  intros before after. split; [|split; vm_compute; reflexivity]. unfold before, after.
  assert (PN : forall s, beqb s (str "d") || beqb s (str "t") || beqb s (str "id") || beqb s (str "n") = true -> plain_name s).
  { intros s. destruct (beqb_spec s (str "d")) as [->|_]; [|destruct (beqb_spec s (str "t")) as [->|_]; [|destruct (beqb_spec s (str "id")) as [->|_]; [|destruct (beqb_spec s (str "n")) as [->|_]; [|discriminate]]]];
      intros _ H; cbn in H; intuition discriminate. }
  assert (D : describes (ex_defs (str "d") (str "t")) ex_sch).
  { split; [reflexivity|]. split; [cbn; repeat constructor; cbn; intuition discriminate|]. repeat constructor; apply PN; reflexivity. }
  assert (F : Forall (fun t => is_table (str "d") (str "t") t = false) [mk_table (str "d") (str "s") ex_sch []]) by (constructor; [reflexivity|constructor]).
  assert (FP : first_present 2 2 [xff]). { split; [cbn; lia|]. intros [|[|i]] Hi; [reflexivity|reflexivity|lia]. }
  assert (LL : forall n, n < 2 ^ 63 -> logged no_float no_float false (LLongLong n) (VInt (Z.of_N n))).
  { intros n Hn. apply lg_longlong, li_signed; [reflexivity|lia|]. change (2 ^ 63) with 9223372036854775808 in Hn. split; [change (Z.of_N 64) with 64%Z; cbn -[Z.of_N]; lia|reflexivity]. }
  assert (LT : logged no_float no_float false (LTiny 5) (VInt 5)).
  { apply lg_tiny, li_signed; [reflexivity|reflexivity|]. split; [vm_compute; split; [discriminate|reflexivity]|reflexivity]. }
  assert (LN : logged no_float no_float false (LTiny 255) (VInt (-1))).
  { apply lg_tiny, li_signed; [reflexivity|reflexivity|]. split; [vm_compute; split; [discriminate|reflexivity]|reflexivity]. }
  assert (S : forall rows, forallb (fun r => match r with [VInt _; VInt _] | [VInt _; VNull] => true | _ => false end) rows = true ->
     NoDup (map (key_of [true; false]) rows) -> sound (ex_defs (str "d") (str "t")) ex_sch rows).
  { intros rows Hr N. split; [|split; [exact N|]]; apply Forall_forall; intros r Hin; apply (proj1 (forallb_forall _ _) Hr) in Hin;
      (destruct r as [|[|z| | |] [|[|z'| | |] [|]]]; try discriminate Hin); [repeat constructor..| |]; cbn; intuition discriminate. }
  assert (ND : forall rows, (fix nd l := match l with [] => true | x :: l => negb (existsb (fun y => match x, y with [VInt a], [VInt b] => Z.eqb a b | _, _ => true end) l) && nd l end) (map (key_of [true; false]) rows) = true ->
     NoDup (map (key_of [true; false]) rows)).
  { intros rows. generalize (map (key_of [true; false]) rows). induction l as [|x l IH]; intros H; [constructor|]. apply andb_true_iff in H as [H1 H2]. constructor; [|auto].
    intros Hin. apply negb_true_iff in H1. assert (X : existsb (fun y => match x, y with [VInt a], [VInt b] => Z.eqb a b | _, _ => true end) l = true); [|congruence].
    apply existsb_exists. exists x. split; [exact Hin|]. destruct x as [|[|a| | |] [|]]; try reflexivity. apply Z.eqb_refl. }
  unfold ex_items, ex_db. apply lh_other; [discriminate|].
  eapply (lh_rows _ _ _ _ _ _ RInsert 9 _ 400 _ (ex_t (str "t")) (map CInsert [[VInt 7; VInt 5]; [VInt 8; VNull]]) _ ex_sch _ [[VInt 1; VNull]; [VInt 7; VInt 5]; [VInt 8; VNull]]);
    [reflexivity|reflexivity| |apply PN; reflexivity|apply PN; reflexivity|exact D|exact F| |].
  { split; [discriminate|]. eexists. split; [vm_compute; reflexivity|]. apply si; [exact FP|].
    constructor; [|constructor; [|constructor]].
    - apply rm_cons; [apply LL; reflexivity|exact I|]. apply rm_cons; [exact LT|exact I|apply rm_nil].
    - apply rm_cons; [apply LL; reflexivity|exact I|]. apply rm_cons; [apply lg_null|exact I|apply rm_nil]. }
  { cbn [map]. apply (hi_cons _ _ _ [[VInt 1; VNull]; [VInt 7; VInt 5]]); [apply S, ND; reflexivity|apply (ch_insert [_])|].
    apply (hi_cons _ _ _ [[VInt 1; VNull]; [VInt 7; VInt 5]; [VInt 8; VNull]]); [apply S, ND; reflexivity|apply (ch_insert [_; _])|].
    apply hi_nil. apply S, ND; reflexivity. }
  apply lh_other; [discriminate|]. apply lh_left_out; [reflexivity|].
  eapply (lh_rows _ _ _ _ _ _ RUpdate 9 _ 500 _ (ex_t (str "t")) (map (fun x => CUpdate (fst x) (snd x)) [([VInt 7; VInt 5], [VInt 7; VInt (-1)])]) _ ex_sch _ [[VInt 1; VNull]; [VInt 7; VInt (-1)]; [VInt 8; VNull]]);
    [reflexivity|reflexivity| |apply PN; reflexivity|apply PN; reflexivity|exact D|exact F| |].
  { split; [reflexivity|]. eexists. split; [vm_compute; reflexivity|]. apply su; [exact FP|exact FP|].
    constructor; [|constructor]. split; (apply rm_cons; [apply LL; reflexivity|exact I|]); (apply rm_cons; [first [exact LT|exact LN]|exact I|apply rm_nil]). }
  { cbn [map fst snd]. apply (hi_cons _ _ _ [[VInt 1; VNull]; [VInt 7; VInt (-1)]; [VInt 8; VNull]]); [apply S, ND; reflexivity|apply (ch_update [_] _ _ [_])|].
    apply hi_nil. apply S, ND; reflexivity. }
  eapply (lh_rows _ _ _ _ _ _ RDelete 9 _ 600 _ (ex_t (str "t")) (map CDelete [[VInt 8; VNull]]) _ ex_sch _ [[VInt 1; VNull]; [VInt 7; VInt (-1)]]);
    [reflexivity|reflexivity| |apply PN; reflexivity|apply PN; reflexivity|exact D|exact F| |].
  { split; [reflexivity|]. eexists. split; [vm_compute; reflexivity|]. apply sd; [exact FP|].
    constructor; [|constructor]. apply rm_cons; [apply LL; reflexivity|exact I|]. apply rm_cons; [apply lg_null|exact I|apply rm_nil]. }
  { cbn [map]. apply (hi_cons _ _ _ [[VInt 1; VNull]; [VInt 7; VInt (-1)]]); [apply S, ND; reflexivity|apply (ch_delete [_; _] _ [])|].
    apply hi_nil. apply S, ND; reflexivity. }
  apply lh_nil.
Qed.
Example C55_null_key_example :
  let xs := [VNull; VInt 5] in
  deletes true (str "d") (str "t") (ex_defs [] []) xs (str "DELETE FROM `d`.`t` WHERE `id` = null") /\ typed ex_sch xs /\
  In VNull (key_of (map is_key (ex_defs [] [])) xs) /\
  run_script true (ex_db [xs]) [str "DELETE FROM `d`.`t` WHERE `id` = null"] = Some (ex_db [xs]) /\
  run_script true (ex_db [xs]) [str "DELETE FROM `d`.`t` WHERE "] = None.
Proof.
  intros xs. split; [|split; [repeat constructor|split; [left; reflexivity|split; vm_compute; reflexivity]]].
  exists [(col (str "id") 7 TLongLong, [TkWord (str "null")]); (col (str "n") 0 TTiny, [TkNum (str "5")])].
  split; [|vm_compute; reflexivity]. apply ct_cons; [left; reflexivity|]. apply ct_cons; [|apply ct_nil].
  exists (str "5"). split; [|reflexivity]. exists 0%nat. split; [reflexivity|]. split; [reflexivity|left; reflexivity].
Qed.
