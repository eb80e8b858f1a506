(** C66: from the tables of the server that wrote a log to a script that makes the same changes.
    The server: Spec/ServerLog.v; the engine that runs the script: Spec/Replay.v. *)
From Coq Require Import Strings.String.
From Coq Require Import List NArith ZArith Lia Arith Bool.
From Verif Require Import Model.Base Model.BytesParser Model.Utf8 Model.Conn Model.Auth Model.Session Model.Cmd Model.Fmt Model.Time Model.Col Model.Row Model.Rows Model.Packet Model.Event
  Model.Stream Model.Stmt Model.Transform Model.MyBinlog Model.Tools
  Spec.Wire Spec.Packets Spec.Sha Spec.AuthSpec Spec.Values Spec.Framing Spec.Session Spec.Commands Spec.ResultSets Spec.BitmapSpec Spec.Temporal Spec.EventBodies Spec.BinlogValues Spec.BinlogSpec
  Spec.StreamSpec Spec.SqlSpec Spec.Replay Spec.DmlSpec Spec.ReplayLog Spec.ToolSpec Spec.ServerLog Spec.StoredValues
  Proofs.BaseLemmas Proofs.SqlProofs Proofs.RowsProofs Proofs.BinlogValueProofs Proofs.DmlProofs Proofs.ReplayLogProofs Proofs.ToolProofs Proofs.ServerLogProofs Proofs.ServerLimitProofs Proofs.ExactProofs
  Properties.C57_C58_Tools.
Import ListNotations.
Open Scope N_scope.

(** A value: the bytes the server writes for a column are read to the last one, and the literal made from what was
    read is the value that the column holds. *)
Theorem C66_value : forall fmt_f32 fmt_f64 esc ty unsigned x bs, written fmt_f32 fmt_f64 esc ty unsigned x bs ->
  exists m v s ts, type_desc ty = Some m /\ (forall rest, read_binlog_value m (bs ++ rest) = (Ok v, rest)) /\
    rbind (sv_of_binlog v unsigned) (param_text fmt_f32 fmt_f64) = Ok s /\ value_tokens x ts /\ reads_as esc s ts.
Proof.
  intros fmt_f32 fmt_f64 esc ty unsigned x bs W. destruct (written_read _ _ _ _ _ _ _ W) as (v & S & D & L & X & _).
  assert (M : exists m, type_desc ty = Some m) by (destruct S; eexists; reflexivity). destruct M as (m & M).
  destruct (literal_reads fmt_f32 fmt_f64 esc unsigned v x L X) as (sv & s & ts & E1 & E2 & E3 & E4).
  exists m, v, s, ts. split; [exact M|]. split; [intros rest; apply (value_decodes ty); assumption|]. rewrite E1. auto.
Qed.
Print Assumptions C66_value.

(** The values that come through, exactly: of everything that a column can hold ([holds], Spec/StoredValues.v), the values
    that [written] admits are those whose bytes are read to the last one and whose literal is read as the value. *)
Theorem C66_exact : forall fmt_f32 fmt_f64 esc ty unsigned x bs,
  written fmt_f32 fmt_f64 esc ty unsigned x bs <->
  holds fmt_f32 fmt_f64 ty unsigned x bs /\
  exists m v s ts, type_desc ty = Some m /\ (forall rest, read_binlog_value m (bs ++ rest) = (Ok v, rest)) /\
    rbind (sv_of_binlog v unsigned) (param_text fmt_f32 fmt_f64) = Ok s /\ value_tokens x ts /\ reads_as esc s ts.
Proof.
  intros fmt_f32 fmt_f64 esc ty unsigned x bs. split.
  - intros W. split; [exact (written_holds _ _ _ _ _ _ _ W)|exact (C66_value _ _ _ _ _ _ _ W)].
  - intros (H & C). exact (comes_through _ _ _ _ _ _ _ H C).
Qed.
Print Assumptions C66_exact.

(** The program: a server has a log of what happened to its tables, and sends it to [mybinlog dml].  Run against the
    chosen tables as they were before, the lines that are printed make them what they were after. *)
Theorem C66_dml : forall sha1 sha256 fmt_f32 fmt_f64 crc checks compile uuid slave_id user pw filename s1 s2 df tf o reqs opening p es m entries
    answers defs_of plugin1 nonce1 plugin2 nonce2 d d2 esc before after,
  (forall x, length (sha1 x) = 20%nat) -> (forall x, length (sha256 x) = 32%nat) ->
  (forall bs, crc bs < 2 ^ 32) -> slave_id < 2 ^ 32 -> length uuid = 36%nat -> N.of_nat (length filename) < 2 ^ 30 ->
  no_nul user -> N.of_nat (length user) < 2 ^ 20 ->
  filter_is compile df (do_database o) -> filter_is compile tf (do_table o) -> do_limit o = 0 ->
  opens_log tool_caps (bo_set_non_block true (bo_set_pos 4 (bo_set_filename filename bo_new))) uuid slave_id reqs opening p ->
  let sums := p_checksum p in
  let chosen := filtered (do_database o) (do_table o) in
  let todo := within (do_until_now o) entries in
  (* the log *)
  Forall (log_event_ok sums) es -> Forall2 (logs fmt_f32 fmt_f64 esc) es entries ->
  stable [] todo -> server_history chosen [] todo before after ->
  (* the connections *)
  eof_message tool_caps m -> admits pw s1 plugin1 nonce1 (opening ++ map (event_message crc sums) es ++ [m]) d ->
  unaltered chosen defs_of todo -> Forall (fun t => no_nul (dc_name t)) (first_mapped chosen [] todo) ->
  Forall2 (fun t ms => table_answer tool_caps (defs_of (dc_db t) (dc_name t)) ms) (first_mapped chosen [] todo) answers ->
  admits pw s2 plugin2 nonce2 (concat answers) d2 ->
  exists out c h, exec_dml sha1 sha256 fmt_f32 fmt_f64 crc checks compile uuid slave_id user pw filename (do_until_now o) df tf false (do_limit o) (Some s1) (Some s2) =
      (Ok tt, out, Some c, Some h) /\ run_script esc before out = Some after.
Proof.
  intros until after. intros H20 H32 Hcrc Hid Hu Hf Hn Hl F1 F2 Hlim Ho sums chosen todo He Hlog Hst Hh Em A1 U Nn An A2.
  destruct (server_side fmt_f32 fmt_f64 esc (selected o) chosen defs_of (fun t => eq_refl) sums (do_until_now o) es entries before after He Hlog Hst Hh U Nn)
    as (items & stmts & M & _ & C & P & R & L & Nm).
  destruct (C58_dml sha1 sha256 fmt_f32 fmt_f64 crc checks compile uuid slave_id user pw filename s1 s2 df tf o reqs opening p es m items (map LStmt stmts)
    answers defs_of plugin1 nonce1 plugin2 nonce2 d d2 H20 H32 Hcrc Hid Hu Hf Hn Hl F1 F2 Ho He M Em A1 C P) as (out & c & h & E & Lm & _);
    [rewrite L; apply answers_map; exact An|exact Nm|exact A2|].
  exists (map text out), c, h. split; [exact E|]. unfold limited in Lm. rewrite Hlim in Lm. cbn in Lm. subst out.
  rewrite map_map. cbn [text]. rewrite map_id. exact R.
Qed.
Print Assumptions C66_dml.
(** With --limit, the lines that are printed make the first changes, as many as the limit says. *)
Theorem C66_limit : forall sha1 sha256 fmt_f32 fmt_f64 crc checks compile uuid slave_id user pw filename s1 s2 df tf o reqs opening p es m entries
    answers defs_of plugin1 nonce1 plugin2 nonce2 d d2 esc before after,
  (forall x, length (sha1 x) = 20%nat) -> (forall x, length (sha256 x) = 32%nat) ->
  (forall bs, crc bs < 2 ^ 32) -> slave_id < 2 ^ 32 -> length uuid = 36%nat -> N.of_nat (length filename) < 2 ^ 30 ->
  no_nul user -> N.of_nat (length user) < 2 ^ 20 ->
  filter_is compile df (do_database o) -> filter_is compile tf (do_table o) -> do_limit o <> 0 ->
  opens_log tool_caps (bo_set_non_block true (bo_set_pos 4 (bo_set_filename filename bo_new))) uuid slave_id reqs opening p ->
  let sums := p_checksum p in
  let chosen := filtered (do_database o) (do_table o) in
  let todo := within (do_until_now o) entries in
  (* the log *)
  Forall (log_event_ok sums) es -> Forall2 (logs fmt_f32 fmt_f64 esc) es entries ->
  stable [] todo -> server_history chosen [] todo before after ->
  (* the connections *)
  eof_message tool_caps m -> admits pw s1 plugin1 nonce1 (opening ++ map (event_message crc sums) es ++ [m]) d ->
  unaltered chosen defs_of todo -> Forall (fun t => no_nul (dc_name t)) (first_mapped chosen [] todo) ->
  Forall2 (fun t ms => table_answer tool_caps (defs_of (dc_db t) (dc_name t)) ms) (first_mapped chosen [] todo) answers ->
  admits pw s2 plugin2 nonce2 (concat answers) d2 ->
  exists out mid c h, exec_dml sha1 sha256 fmt_f32 fmt_f64 crc checks compile uuid slave_id user pw filename (do_until_now o) df tf false (do_limit o) (Some s1) (Some s2) =
      (Ok tt, out, Some c, Some h) /\ run_script esc before out = Some mid /\
    server_history chosen [] (first_changes (N.to_nat (do_limit o)) todo) before mid.
Proof.
  intros until after. intros H20 H32 Hcrc Hid Hu Hf Hn Hl F1 F2 Hlim Ho sums chosen todo He Hlog Hst Hh Em A1 U Nn An A2.
  destruct (server_side_limit fmt_f32 fmt_f64 esc (selected o) chosen defs_of (fun t => eq_refl) sums (do_until_now o) es entries before after He Hlog Hst Hh U Nn)
    as (items & stmts & M & C & P & R & L & Nm).
  destruct (C58_dml sha1 sha256 fmt_f32 fmt_f64 crc checks compile uuid slave_id user pw filename s1 s2 df tf o reqs opening p es m items (map LStmt stmts)
    answers defs_of plugin1 nonce1 plugin2 nonce2 d d2 H20 H32 Hcrc Hid Hu Hf Hn Hl F1 F2 Ho He M Em A1 C P) as (out & c & h & E & Lm & _);
    [rewrite L; apply answers_map; exact An|exact Nm|exact A2|].
  destruct (R (N.to_nat (do_limit o))) as (mid & R1 & R2). exists (map text out), mid, c, h. split; [exact E|].
  rewrite (limited_prefix _ _ _ Hlim Lm), map_map. cbn [text]. rewrite map_id. split; [exact R1|exact R2].
Qed.
Print Assumptions C66_limit.
(** If the connection ends behind any event, what was printed makes the changes up to there. *)
Theorem C66_cut : forall sha1 sha256 fmt_f32 fmt_f64 crc checks compile block uuid slave_id user pw filename s1 s2 df tf o reqs opening p es entries
    answers defs_of plugin1 nonce1 plugin2 nonce2 d d2 esc before after,
  (forall x, length (sha1 x) = 20%nat) -> (forall x, length (sha256 x) = 32%nat) ->
  (forall bs, crc bs < 2 ^ 32) -> slave_id < 2 ^ 32 -> length uuid = 36%nat -> N.of_nat (length filename) < 2 ^ 30 ->
  no_nul user -> N.of_nat (length user) < 2 ^ 20 ->
  filter_is compile df (do_database o) -> filter_is compile tf (do_table o) -> do_limit o = 0 ->
  opens_log tool_caps (bo_set_non_block (negb block) (bo_set_pos 4 (bo_set_filename filename bo_new))) uuid slave_id reqs opening p ->
  let sums := p_checksum p in
  let chosen := filtered (do_database o) (do_table o) in
  let todo := within (do_until_now o) entries in
  Forall (log_event_ok sums) es -> Forall2 (logs fmt_f32 fmt_f64 esc) es entries ->
  stable [] todo -> server_history chosen [] todo before after ->
  no_message d -> admits pw s1 plugin1 nonce1 (opening ++ map (event_message crc sums) es) d ->
  unaltered chosen defs_of todo -> Forall (fun t => no_nul (dc_name t)) (first_mapped chosen [] todo) ->
  Forall2 (fun t ms => table_answer tool_caps (defs_of (dc_db t) (dc_name t)) ms) (first_mapped chosen [] todo) answers ->
  admits pw s2 plugin2 nonce2 (concat answers) d2 ->
  exists r out c h, exec_dml sha1 sha256 fmt_f32 fmt_f64 crc checks compile uuid slave_id user pw filename (do_until_now o) df tf block (do_limit o) (Some s1) (Some s2) =
      (r, out, Some c, Some h) /\ (r = Err EIO \/ (r = Ok tt /\ do_until_now o = false /\ In ERotate entries)) /\ run_script esc before out = Some after.
Proof.
  intros until after. intros H20 H32 Hcrc Hid Hu Hf Hn Hl F1 F2 Hlim Ho sums chosen todo He Hlog Hst Hh Em A1 U Nn An A2.
  destruct (server_side fmt_f32 fmt_f64 esc (selected o) chosen defs_of (fun t => eq_refl) sums (do_until_now o) es entries before after He Hlog Hst Hh U Nn)
    as (items & stmts & M & S & C & P & R & L & Nm).
  destruct (C58_dml_cut sha1 sha256 fmt_f32 fmt_f64 crc checks compile block uuid slave_id user pw filename s1 s2 df tf o reqs opening p es items (map LStmt stmts)
    answers defs_of plugin1 nonce1 plugin2 nonce2 d d2 H20 H32 Hcrc Hid Hu Hf Hn Hl F1 F2 Ho He M Em A1 C P) as (out & c & h & E & Lm & _);
    [rewrite L; apply answers_map; exact An|exact Nm|exact A2|].
  eexists _, (map text out), c, h. split; [exact E|]. split.
  - destruct (stops_early o items (map LStmt stmts)) eqn:X; [right|left; reflexivity]. split; [reflexivity|].
    unfold stops_early in X. rewrite Hlim in X. cbn [N.eqb negb andb orb] in X. apply Nat.ltb_lt in X.
    assert (I : In IRotate items /\ do_until_now o = false).
    { clear - X. induction items as [|it items IH]; [cbn in X; lia|].
      destruct it; cbn [scope length] in X; try (destruct IH as [I1 I2]; [lia|]; split; [right; exact I1|exact I2]).
      destruct (do_until_now o); [|split; [left; reflexivity|reflexivity]]. cbn [length] in X. destruct IH as [I1 I2]; [lia|]. discriminate I2. }
    split; [apply I|]. apply (stands_rotate fmt_f32 fmt_f64 esc _ _ S), I.
  - unfold limited in Lm. rewrite Hlim in Lm. cbn in Lm. subst out. rewrite map_map. cbn [text]. rewrite map_id. exact R.
Qed.
Print Assumptions C66_cut.
(** Finding: one table with a SET or a JSON column in the log ends the run there, even if the filters leave that table
    out.  What was printed makes the changes up to there. *)
Theorem C66_unsupported_refuted : forall sha1 sha256 fmt_f32 fmt_f64 crc checks compile block uuid slave_id user pw filename s1 s2 df tf o reqs opening p es e ps entries
    id flags db name pre ty post nulls answers defs_of plugin1 nonce1 plugin2 nonce2 d d2 esc before after r,
  (forall x, length (sha1 x) = 20%nat) -> (forall x, length (sha256 x) = 32%nat) ->
  (forall bs, crc bs < 2 ^ 32) -> slave_id < 2 ^ 32 -> length uuid = 36%nat -> N.of_nat (length filename) < 2 ^ 30 ->
  no_nul user -> N.of_nat (length user) < 2 ^ 20 ->
  filter_is compile df (do_database o) -> filter_is compile tf (do_table o) -> do_limit o = 0 ->
  opens_log tool_caps (bo_set_non_block (negb block) (bo_set_pos 4 (bo_set_filename filename bo_new))) uuid slave_id reqs opening p ->
  let sums := p_checksum p in
  let chosen := filtered (do_database o) (do_table o) in
  Forall (log_event_ok sums) (es ++ [e]) -> Forall2 (logs fmt_f32 fmt_f64 esc) es entries -> (In ERotate entries -> do_until_now o = true) ->
  stable [] entries -> server_history chosen [] entries before after ->
  (* a table that is mapped for the first time *)
  le_code e = 19 -> id < 2 ^ 48 -> flags < 2 ^ 16 -> mapped (rev entries) id = None ->
  le_body e = wle 6 id ++ wle 2 flags ++ table_map_bytes db name (pre ++ ty :: post) nulls ->
  short db -> short name -> utf8_valid db = true -> utf8_valid name = true -> N.of_nat (length (pre ++ ty :: post)) <= 4096 ->
  length nulls = ((length (pre ++ ty :: post) + 7) / 8)%nat ->
  Forall sql_type_ok pre -> Forall (fun ty => match ty with SSet _ | SJson => False | _ => True end) pre -> unsupported ty r ->
  admits pw s1 plugin1 nonce1 (opening ++ map (event_message crc sums) (es ++ [e]) ++ ps) d ->
  unaltered chosen defs_of entries -> Forall (fun t => no_nul (dc_name t)) (first_mapped chosen [] entries) ->
  Forall2 (fun t ms => table_answer tool_caps (defs_of (dc_db t) (dc_name t)) ms) (first_mapped chosen [] entries) answers ->
  admits pw s2 plugin2 nonce2 (concat answers) d2 ->
  exists out c h, exec_dml sha1 sha256 fmt_f32 fmt_f64 crc checks compile uuid slave_id user pw filename (do_until_now o) df tf block (do_limit o) (Some s1) (Some s2) =
      (r, out, Some c, Some h) /\ run_script esc before out = Some after.
Proof.
  intros until r. intros H20 H32 Hcrc Hid Hu Hf Hn Hl F1 F2 Hlim Ho sums chosen He Hlog Hrot Hst Hh Cd Hi Hfl Hmap Hb Q1 Q2 Q3 Q4 Q5 Q6 Q7 Q8 Hun A1 U Nn An A2.
  pose proof (within_all _ _ Hrot) as W. assert (He' := He). apply Forall_app in He'. destruct He' as [He1 He2]. inversion He2 as [|? ? He3 _]; subst.
  destruct (server_side fmt_f32 fmt_f64 esc (selected o) chosen defs_of (fun t => eq_refl) sums (do_until_now o) es entries before after He1 Hlog)
    as (items & stmts & M & S & C & P & R & L & Nm); try (rewrite W; assumption).
  assert (Sc : scope (do_until_now o) items = items).
  { assert (Hr : In IRotate items -> do_until_now o = true) by (intros X; apply Hrot, (stands_rotate fmt_f32 fmt_f64 esc _ _ S), X).
    clear - Hr. induction items as [|it items IH]; [reflexivity|]. assert (IH' : scope (do_until_now o) items = items) by (apply IH; intros X; apply Hr; right; exact X).
    destruct it; cbn [scope]; rewrite ?IH'; try reflexivity. rewrite (Hr (or_introl eq_refl)). reflexivity. }
  rewrite Sc in *. rewrite W in L.
  assert (X : forall done rest, items = done ++ rest -> forall id, latest (rev done ++ []) id = earliest (rev done ++ []) id).
  { intros done rest E i. symmetry. exact (consistent_earliest items [] C (fun _ => eq_refl) done rest E i). }
  destruct (printed_ext fmt_f32 fmt_f64 (selected o) defs_of latest earliest items [] X) as (P1 & P2).
  destruct (map_stops fmt_f32 fmt_f64 defs_of id flags db name pre ty post nulls r Hi Hfl Q1 Q2 Q3 Q4 Q5 Q6 Q7 Q8 Hun) as (dd & D1 & D2 & D3).
  destruct (header_some sums e He3) as (hd & Hd).
  destruct (C58_failure sha1 sha256 fmt_f32 fmt_f64 crc checks compile block uuid slave_id user pw filename s1 s2 df tf o reqs opening p es e (mk_event KTableMap hd (le_body e)) ps d items (map LStmt stmts)
    answers defs_of plugin1 nonce1 plugin2 nonce2 d2 r H20 H32 Hcrc Hid Hu Hf Hn Hl F1 F2 Ho He M) as (c & h & E & _).
  - apply parsed_code; [rewrite Cd; reflexivity|exact Hd].
  - exact A1.
  - intros I. apply Hrot, (stands_rotate fmt_f32 fmt_f64 esc _ _ S), I.
  - rewrite <- P1. exact P.
  - left. exact Hlim.
  - rewrite <- P2, L. apply answers_map, An.
  - rewrite <- P2. exact Nm.
  - exact A2.
  - apply fails_metas with (d := dd); [rewrite Hb; exact D1| |exact D3].
    specialize (X items [] (eq_sym (app_nil_r _)) id). rewrite app_nil_r in X. rewrite D2, <- X.
    rewrite (mapped_latest fmt_f32 fmt_f64 esc _ _ (stands_rev fmt_f32 fmt_f64 esc _ _ S)), Hmap. reflexivity.
  - eexists (map text (map LStmt stmts)), c, h. split; [exact E|]. rewrite map_map. cbn [text]. rewrite map_id. exact R.
Qed.
Print Assumptions C66_unsupported_refuted.

(** ** A concrete case: the log of C58, as the server sees it *)
Definition ex_table (name : bytes) : declared :=
  mk_declared (str "d") name [mk_column (str "id") SBigint false true true; mk_column (str "n") STinyint false false false] [x00].
Definition ex_entries : list entry :=
  [EMap 9 (ex_table (str "t")); EInsert 9 (ex_table (str "t")) [[VInt 7; VInt 5]; [VInt 8; VNull]];
   EMap 4 (ex_table (str "v")); EForeign 4;
   EUpdate 9 (ex_table (str "t")) [([VInt 7; VInt 5], [VInt 7; VInt (-1)])]; EDelete 9 (ex_table (str "t")) [[VInt 8; VNull]]].
(** the table t holds a row from before; another table is not touched *)
Definition ex_first : row := [VInt 2; VInt 9].
Definition ex_others : table := holding (ex_table (str "w")) [[VInt 1; VInt 1]].
Definition ex_before : database := [ex_others; holding (ex_table (str "t")) [ex_first]].
Definition ex_after : database := [ex_others; holding (ex_table (str "t")) [ex_first; [VInt 7; VInt (-1)]]].
Lemma ex_written x n z v nulls : logged_int false 64 n x ->
  match z with Some m => exists y, v = VInt y /\ logged_int false 8 m y | None => v = VNull end ->
  bitmap_of (map holds_null [VInt x; v]) nulls -> row_written no_float no_float true (dc_cols (ex_table (str "t"))) [VInt x; v] (nulls ++ wle 8 n ++ match z with Some m => wle 1 m | None => [] end).
Proof.
  intros Hx Hv Hn. exists nulls, [wle 8 n; match z with Some m => wle 1 m | None => [] end]. split; [|split; [exact Hn|]].
  - apply rp_value; [apply wr_big; exact Hx|]. destruct z as [m|].
    + destruct Hv as (y & -> & Hy). apply rp_value; [apply wr_tiny; exact Hy|constructor].
    + subst v. apply rp_null. constructor.
  - destruct z; cbn [concat]; rewrite ?app_nil_r; reflexivity.
Qed.
Example C66_example_log : Forall2 (logs no_float no_float true) ex_log ex_entries.
Proof.
  assert (T : forall name, short name -> utf8_valid name = true -> declared_ok (ex_table name)).
  { intros name H1 H2. unfold declared_ok. split; [discriminate|]. split; [reflexivity|]. split; [exact H1|]. split; [reflexivity|]. split; [exact H2|].
    split; [discriminate|]. split; [repeat constructor|]. split; [repeat constructor|reflexivity]. }
  assert (B : bitmap_of [true; true] [xff]) by (split; [reflexivity|]; intros [|[|i]] Hi; [reflexivity|reflexivity|cbn in Hi; lia]).
  assert (B1 : bitmap_of [false; false] [xfc]) by (split; [reflexivity|]; intros [|[|i]] Hi; [reflexivity|reflexivity|cbn in Hi; lia]).
  assert (B2 : bitmap_of [false; true] [xfe]) by (split; [reflexivity|]; intros [|[|i]] Hi; [reflexivity|reflexivity|cbn in Hi; lia]).
  assert (R7 : row_written no_float no_float true (dc_cols (ex_table (str "t"))) [VInt 7; VInt 5] ([xfc] ++ wle 8 7 ++ wle 1 5)).
  { apply (ex_written 7 7 (Some 5)); [apply li_signed; [reflexivity|reflexivity|vm_compute; repeat split; discriminate]|exists 5%Z; split; [reflexivity|apply li_signed; [reflexivity|reflexivity|vm_compute; repeat split; discriminate]]|exact B1]. }
  assert (R7' : row_written no_float no_float true (dc_cols (ex_table (str "t"))) [VInt 7; VInt (-1)] ([xfc] ++ wle 8 7 ++ wle 1 255)).
  { apply (ex_written 7 7 (Some 255)); [apply li_signed; [reflexivity|reflexivity|vm_compute; repeat split; discriminate]|exists (-1)%Z; split; [reflexivity|apply li_signed; [reflexivity|reflexivity|vm_compute; repeat split; discriminate]]|exact B1]. }
  assert (R8 : row_written no_float no_float true (dc_cols (ex_table (str "t"))) [VInt 8; VNull] ([xfe] ++ wle 8 8)).
  { pose proof (ex_written 8 8 None VNull [xfe]) as X. rewrite app_nil_r in X. apply X; [apply li_signed; [reflexivity|reflexivity|vm_compute; repeat split; discriminate]|reflexivity|exact B2]. }
  assert (Tt : declared_ok (ex_table (str "t"))) by (apply T; reflexivity). assert (Tv : declared_ok (ex_table (str "v"))) by (apply T; reflexivity).
  unfold ex_log, ex_entries.
  apply Forall2_cons; [apply logs_map with (flags := 1); [reflexivity|reflexivity|reflexivity|exact Tt|reflexivity]|].
  apply Forall2_cons; [apply logs_insert with (flags := 1) (extra := []) (pb := [xff]) (images := [[xfc] ++ wle 8 7 ++ wle 1 5; [xfe] ++ wle 8 8]);
    [reflexivity|repeat split|exact Tt|exact B|repeat constructor; assumption|vm_compute; reflexivity]|].
  apply Forall2_cons; [apply logs_map with (flags := 1); [reflexivity|reflexivity|reflexivity|exact Tv|reflexivity]|].
  apply Forall2_cons; [apply logs_foreign with (flags := 1) (extra := []) (payload := wlenenc 2 ++ ex_payload 1); [cbn; tauto|repeat split|vm_compute; reflexivity]|].
  apply Forall2_cons; [apply logs_update with (flags := 1) (extra := []) (bb := [xff]) (ab := [xff]) (images := [([xfc] ++ wle 8 7 ++ wle 1 5) ++ [xfc] ++ wle 8 7 ++ wle 1 255]);
    [reflexivity|repeat split|exact Tt|exact B|exact B|repeat constructor; eexists _, _; split; [exact R7|]; split; [exact R7'|reflexivity]|vm_compute; reflexivity]|].
  apply Forall2_cons; [apply logs_delete with (flags := 1) (extra := []) (pb := [xff]) (images := [[xfe] ++ wle 8 8]);
    [reflexivity|repeat split|exact Tt|exact B|repeat constructor; assumption|vm_compute; reflexivity]|].
  apply Forall2_nil.
Qed.
Definition ex_chosen : declared -> bool := filtered None (ex_compile (str "t")).
Lemma ex_rows_ok rows : forallb (fun r => match r with [VInt _; VInt _] | [VInt _; VNull] => true | _ => false end) rows = true ->
  NoDup (map (fun r => firstn 1 r) rows) -> rows_ok (ex_table (str "t")) rows.
Proof.
  intros H N. split; [|split].
  - apply Forall_forall. intros r Hr. apply (proj1 (forallb_forall _ _) H) in Hr.
    destruct r as [|[] [|[] [|? ?]]]; try discriminate; repeat constructor.
  - erewrite map_ext_in; [exact N|]. intros r Hr. apply (proj1 (forallb_forall _ _) H) in Hr.
    destruct r as [|[] [|[] [|? ?]]]; try discriminate; reflexivity.
  - apply Forall_forall. intros r Hr. apply (proj1 (forallb_forall _ _) H) in Hr.
    destruct r as [|[] [|[] [|? ?]]]; try discriminate; cbn; intuition discriminate.
Qed.
Ltac ex_nodup := vm_compute; repeat (apply NoDup_cons; [cbn; intuition discriminate|]); apply NoDup_nil.
Example C66_example_history : stable [] ex_entries /\ within false ex_entries = ex_entries /\ server_history ex_chosen [] ex_entries ex_before ex_after /\
  unaltered ex_chosen ex_defs ex_entries /\ first_mapped ex_chosen [] ex_entries = [ex_table (str "t")].
Proof.
  split; [cbn; repeat split; intros; discriminate|]. split; [reflexivity|]. split; [|split; [|reflexivity]].
  - assert (P : plain_names (ex_table (str "t"))).
    { unfold plain_names, plain_name. cbn. split; [intuition discriminate|]. split; [intuition discriminate|]. split; [|repeat constructor; cbn; intuition discriminate].
      constructor; [cbn; intuition discriminate|constructor; [tauto|constructor]]. }
    assert (F : Forall (fun x => is_table (dc_db (ex_table (str "t"))) (dc_name (ex_table (str "t"))) x = false) [ex_others]) by (repeat constructor).
    unfold ex_entries, ex_before, ex_after. apply sh_map.
    apply (sh_change ex_chosen _ _ _ 9 (ex_table (str "t")) [ex_others] [ex_first] [ex_first; [VInt 7; VInt 5]; [VInt 8; VNull]] []); try reflexivity; try exact P; try exact F; [ |].
    { cbn [changes_of map]. apply hi_cons with (rows' := [ex_first; [VInt 7; VInt 5]]); [apply ex_rows_ok; [reflexivity|ex_nodup]|apply (ch_insert [ex_first])|].
      apply hi_cons with (rows' := [ex_first; [VInt 7; VInt 5]; [VInt 8; VNull]]); [apply ex_rows_ok; [reflexivity|ex_nodup]|apply (ch_insert [ex_first; [VInt 7; VInt 5]])|].
      apply hi_nil. apply ex_rows_ok; [reflexivity|ex_nodup]. }
    apply sh_map. apply sh_foreign; [reflexivity|].
    apply (sh_change ex_chosen _ _ _ 9 (ex_table (str "t")) [ex_others] [ex_first; [VInt 7; VInt 5]; [VInt 8; VNull]] [ex_first; [VInt 7; VInt (-1)]; [VInt 8; VNull]] []); try reflexivity; try exact P; try exact F.
    { cbn [changes_of map fst snd]. eapply hi_cons; [apply ex_rows_ok; [reflexivity|ex_nodup]|apply (ch_update [ex_first] _ _ [[VInt 8; VNull]])|].
      apply hi_nil. apply ex_rows_ok; [reflexivity|ex_nodup]. }
    apply (sh_change ex_chosen _ _ _ 9 (ex_table (str "t")) [ex_others] [ex_first; [VInt 7; VInt (-1)]; [VInt 8; VNull]] [ex_first; [VInt 7; VInt (-1)]] []); try reflexivity; try exact P; try exact F.
    { cbn [changes_of map]. eapply hi_cons; [apply ex_rows_ok; [reflexivity|ex_nodup]|apply (ch_delete [ex_first; [VInt 7; VInt (-1)]] _ [])|].
      apply hi_nil. apply ex_rows_ok; [reflexivity|ex_nodup]. }
    apply sh_nil.
  - intros i t Hi Hc. cbn in Hi. repeat (destruct Hi as [Hi|Hi]; [try discriminate; injection Hi as <- <-|]); try contradiction; try discriminate Hc;
      repeat constructor.
Qed.
(** the conclusion of C66_dml for it *)
Example C66_example_dml : exists out c h,
  ex_dml (str "t") false (ex_source [ex_eof]) (ex_server tool_caps ex_answer) = (Ok tt, out, Some c, Some h) /\ run_script true ex_before out = Some ex_after.
Proof.
  pose proof C58_example_meets as M. destruct M as ((reqs & M1) & M2 & M3 & M4 & M5 & M6 & M7 & M8 & M9 & _ & M10 & _ & M11 & M12 & _ & _ & _ & _ & _ & _ & _ & _ & M13 & _ & M14 & _).
  apply Forall_app in M10. destruct M10 as [M10 _]. destruct C66_example_history as (Q1 & Q2 & Q3 & Q4 & Q5).
  apply (C66_dml sha1 sha256 no_float no_float crc32 true ex_compile ex_uuid 7 (str "root") (str "pw") (str "bin.1") (ex_source [ex_eof]) (ex_server tool_caps ex_answer)
    None (Some (str "t")) ex_options reqs ex_opening (described_parser ex_fd) ex_log ex_eof ex_entries [ex_answer] ex_defs
    (str "mysql_native_password") ex_nonce (str "mysql_native_password") ex_nonce [] [] true ex_before ex_after); try assumption; try reflexivity.
  - exact C66_example_log.
  - change (within (do_until_now ex_options) ex_entries) with (within false ex_entries). rewrite Q2.
    change (filtered (do_database ex_options) (do_table ex_options)) with ex_chosen. rewrite Q5. repeat constructor. unfold no_nul; cbn; intuition discriminate.
  - change (within (do_until_now ex_options) ex_entries) with (within false ex_entries). rewrite Q2.
    change (filtered (do_database ex_options) (do_table ex_options)) with ex_chosen. rewrite Q5. constructor; [exact M13|constructor].
Qed.
(** with a limit of 3 the delete is left out *)
Example C66_example_limit :
  first_changes 3 ex_entries = firstn 5 ex_entries /\ first_changes 1 ex_entries = [EMap 9 (ex_table (str "t")); EInsert 9 (ex_table (str "t")) [[VInt 7; VInt 5]]] /\
  fst (fst (exec_dml sha1 sha256 no_float no_float crc32 true ex_compile ex_uuid 7 (str "root") (str "pw") (str "bin.1") false None (Some (str "t")) false 3
    (Some (ex_source [ex_eof])) (Some (ex_server tool_caps ex_answer)))) = (Ok tt, firstn 3 ex_script) /\
  run_script true ex_before (firstn 3 ex_script) = Some [ex_others; holding (ex_table (str "t")) [ex_first; [VInt 7; VInt (-1)]; [VInt 8; VNull]]].
Proof. split; [reflexivity|]. split; [reflexivity|]. split; vm_compute; reflexivity. Qed.
(** a table with a SET column that the filter leaves out *)
Example C66_example_unsupported :
  let e := mk_log_event 1 19 2 700 0 (wle 6 11 ++ wle 2 1 ++ table_map_bytes (str "d") (str "u") [SInt; SSet 1] [x02]) in
  log_event_ok true e /\ mapped (rev ex_entries) 11 = None /\ Forall sql_type_ok [SInt] /\ unsupported (SSet 1) (Panic PUnimplemented) /\
  ex_chosen (ex_table (str "u")) = false /\
  fst (fst (ex_dml (str "t") false (ex_source [event_message crc32 true e; ex_eof]) (ex_server tool_caps ex_answer))) = (Panic PUnimplemented, ex_script).
Proof. cbv zeta. split; [repeat constructor|]. split; [reflexivity|]. split; [repeat constructor|]. split; [reflexivity|]. split; [reflexivity|]. vm_compute. reflexivity. Qed.

(** BIT(16): 0x0101 comes through and 0x0102 does not; VARCHAR(20): 50\% comes through, 50\n does not; DATE: the zero date does not *)
Example C66_example_exact :
  written no_float no_float true (SBit 16) false (VInt 257) [x01; x01] /\
  (holds no_float no_float (SBit 16) false (VInt 258) [x01; x02] /\ ~ written no_float no_float true (SBit 16) false (VInt 258) [x01; x02]) /\
  written no_float no_float true (SVarchar 20) false (VText (str "50\%")) (x04 :: str "50\%") /\
  (holds no_float no_float (SVarchar 20) false (VText (str "50\n")) (x04 :: str "50\n") /\
   ~ written no_float no_float true (SVarchar 20) false (VText (str "50\n")) (x04 :: str "50\n")) /\
  (holds no_float no_float SDate false (VText (str "0000-00-00")) [x00; x00; x00] /\
   ~ written no_float no_float true SDate false (VText (str "0000-00-00")) [x00; x00; x00]).
Proof.
  split; [apply (wr_bit _ _ _ _ 16 257); try reflexivity; split; discriminate|]. split; [split|].
  { apply (hd_bit _ _ false 16 258); [split; discriminate|reflexivity]. }
  { intros W. inversion W; subst. discriminate. }
  split; [|split].
  - apply (wr_varchar _ _ _ false 20 (str "50\%")); [reflexivity|discriminate|]. split; [reflexivity|]. split; [intros _|left; intros K; cbn in K; intuition discriminate].
    split; [intros K; discriminate K|]. split; [intros K; discriminate K|]. split; [intros _; eexists _, _; split; [reflexivity|left; reflexivity]|].
    split; [intros K; discriminate K|exact I].
  - split; [apply (hd_varchar _ _ false 20 (str "50\n")); [reflexivity|discriminate]|]. intros W. inversion W; subst.
    match goal with P : plain_text _ _ |- _ => destruct P as (_ & P & _); destruct (P eq_refl) as (_ & _ & Q & _); destruct (Q eq_refl) as (c & r & E & [K|K]); injection E as <- <-; discriminate K end.
  - split; [apply (hd_date _ _ false 0 0 0); discriminate|]. intros W. apply C66_value in W as (m & v & s & ts & D & R & L & _). injection D as <-.
    specialize (R []). vm_compute in R. injection R as <-. discriminate L.
Qed.

(** Finding: [unaltered] cannot be left out.  The columns are asked for when the log is read, not when it was written.
    What the server says of the table t, if it has altered it since: *)
Definition ex_describes (defs : list column_def) : list bytes := ex_ok :: map field_wire defs ++ [ex_eof].
Definition ex_altered_run (defs : list column_def) := ex_dml (str "t") false (ex_source [ex_eof]) (ex_server tool_caps (ex_describes defs)).
(** a run after which the script makes [rows] of the table, or is not accepted *)
Definition ex_altered_ends (defs : list column_def) (rows : option (list row)) : Prop :=
  table_answer tool_caps defs (ex_describes defs) /\
  exists out c h, ex_altered_run defs = (Ok tt, out, Some c, Some h) /\
    run_script true ex_before out = option_map (fun rows => [ex_others; holding (ex_table (str "t")) rows]) rows.
Theorem C66_altered_refuted :
  (* the log of C66_example_dml *)
  Forall2 (logs no_float no_float true) ex_log ex_entries /\ server_history ex_chosen [] ex_entries ex_before ex_after /\
  (* as it was: the rows of [ex_after] *)
  ex_altered_ends [ex_def (str "id") 7 TLongLong; ex_def (str "n") 0 TTiny] (Some [ex_first; [VInt 7; VInt (-1)]]) /\
  (* ALTER TABLE t MODIFY n TINYINT FIRST: every line is accepted, and the values are in the wrong columns *)
  ex_altered_ends [ex_def (str "n") 0 TTiny; ex_def (str "id") 7 TLongLong] (Some [ex_first; [VInt (-1); VInt 7]; [VNull; VInt 8]]) /\
  (* ALTER TABLE t DROP n: every line is accepted, and the values of the column are lost *)
  ex_altered_ends [ex_def (str "id") 7 TLongLong] (Some [ex_first; [VInt 7; VNull]]) /\
  (* ALTER TABLE t ADD x INT: lines that are no statements (the spare bits of the logged bitmaps are ones, as MySQL sets them) *)
  ex_altered_ends [ex_def (str "id") 7 TLongLong; ex_def (str "n") 0 TTiny; ex_def (str "x") 0 TLong] None.
Proof.
  assert (T : forall defs, Forall (fun d => field_ok d /\ N.of_nat (length (cd_catalog d)) < 2 ^ 24) defs -> table_answer tool_caps defs (ex_describes defs)).
  { intros defs H. split; [exact H|]. exists ex_ok, ex_eof. split; [constructor; reflexivity|]. split; [apply eofm_ok; reflexivity|reflexivity]. }
  assert (R : forall defs rows, (let '(r, out, c, h) := ex_altered_run defs in
      match r, c, h with Ok tt, Some c, Some h => Some (run_script true ex_before out) | _, _, _ => None end) =
      Some (option_map (fun rows => [ex_others; holding (ex_table (str "t")) rows]) rows) ->
      exists out c h, ex_altered_run defs = (Ok tt, out, Some c, Some h) /\
        run_script true ex_before out = option_map (fun rows => [ex_others; holding (ex_table (str "t")) rows]) rows).
  { intros defs rows. destruct (ex_altered_run defs) as [[[[[]| | |] out] [c|]] [h|]]; try discriminate. intros E. injection E as E. exists out, c, h. split; [reflexivity|exact E]. }
  split; [exact C66_example_log|]. split; [apply C66_example_history|].
  split; [split; [apply T; repeat constructor; reflexivity|apply R; vm_compute; reflexivity]|].
  split; [split; [apply T; repeat constructor; reflexivity|apply R; vm_compute; reflexivity]|].
  split; [split; [apply T; repeat constructor; reflexivity|apply R; vm_compute; reflexivity]|].
  split; [apply T; repeat constructor; reflexivity|apply R; vm_compute; reflexivity].
Qed.
Print Assumptions C66_altered_refuted.
