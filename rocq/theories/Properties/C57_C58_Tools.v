(** C57: the protocol options in effect.  C58: the two programs.  Servers: Spec/ToolSpec.v. *)
From Coq Require Import Strings.String.
From Coq Require Import List NArith ZArith Lia Arith Bool.
From Verif Require Import Model.Base Model.BytesParser Model.Utf8 Model.Conn Model.Auth Model.Session Model.Cmd Model.Fmt Model.Col Model.Row Model.Rows Model.Packet Model.Event
  Model.Stream Model.Transform Model.MyBinlog Model.Tools
  Spec.Wire Spec.Packets Spec.Sha Spec.AuthSpec Spec.Values Spec.Framing Spec.Session Spec.Commands Spec.ResultSets Spec.ExtractSpec Spec.EventBodies Spec.BinlogValues Spec.BinlogSpec
  Spec.StreamSpec Spec.SqlSpec Spec.Replay Spec.DmlSpec Spec.ReplayLog  Spec.Hostile Spec.ToolSpec
  Proofs.BaseLemmas Proofs.AuthProofs Proofs.EventProofs Proofs.ConnProofs Proofs.CommandProofs Proofs.StreamProofs Proofs.RowsProofs Proofs.DmlProofs Proofs.ReplayLogProofs Proofs.ToolProofs Proofs.ToolHostile Proofs.ToolSchedule Proofs.CapsProofs.
Import ListNotations.
Open Scope N_scope.

(** ** C57 *)
(** After a login the client decodes what it gets with the options it announced itself.  These are the options both
    sides have - what the protocol says is in effect - exactly if the server has them all. *)
Theorem C57_options : forall sha1 sha256 checks opts s c server_caps,
  handshake sha1 sha256 checks opts (conn_new s) = (Ok tt, c) ->
  c_cap c = client_caps (o_database opts) /\
  (c_cap c = N.land server_caps (client_caps (o_database opts)) <->
   forall i, N.testbit (client_caps (o_database opts)) i = true -> N.testbit server_caps i = true).
Proof.
  intros sha1 sha256 checks opts s c server_caps E. apply login_keeps in E. split; [exact E|]. rewrite E. split.
  - intros H i B. rewrite H, N.land_spec in B. apply andb_true_iff in B. apply B.
  - intros H. apply N.bits_inj. intros i. rewrite N.land_spec. specialize (H i).
    destruct (N.testbit (client_caps (o_database opts)) i); [rewrite (H eq_refl); reflexivity|rewrite andb_false_r; reflexivity].
Qed.
Print Assumptions C57_options.
(** Finding: a server that has no DEPRECATE_EOF still logs the client in, but no result set can be read from it: the
    EOF packet behind the definitions of the columns is taken for the end of the rows, and is no OK packet. *)
Theorem C57_classic_refuted : forall checks sql defs hd ms c d, sendable checks sql -> defs_ok defs -> heading classic_caps defs hd ->
  c_cap c = tool_caps -> accepting (c_ws c) -> awaits c (hd ++ ms) d ->
  exists rs c1 c2, query_qry checks sql c = (Ok rs, c1) /\
    (forall Q (read_row : result_set -> parser (list Q)), next_row read_row rs c1 = (Err EPacket, rs, c2)) /\ awaits c2 ms d.
Proof. exact classic_query. Qed.
Print Assumptions C57_classic_refuted.
Theorem C57_classic_list_refuted : forall sha1 sha256 checks user pw s plugin nonce defs hd ms d,
  (forall x, length (sha1 x) = 20%nat) -> (forall x, length (sha256 x) = 32%nat) ->
  no_nul user -> N.of_nat (length user) < 2 ^ 20 -> defs_ok defs -> heading classic_caps defs hd ->
  admits pw s plugin nonce (hd ++ ms) d ->
  exists c, exec_list sha1 sha256 checks user pw (Some s) = (Err EPacket, Some c).
Proof.
  intros sha1 sha256 checks user pw s plugin nonce defs hd ms d H20 H32 Hn Hl Hd Hh Ha.
  destruct (connect_ok sha1 sha256 checks H20 H32 user pw s plugin nonce _ d Hn Hl Ha) as (c & m & w & E & _ & _ & _ & C & A & Aw).
  destruct (classic_files checks defs hd ms c d Hd Hh C A Aw) as (c' & E'). exists c'. unfold exec_list. rewrite E, E'. reflexivity.
Qed.
Print Assumptions C57_classic_list_refuted.

(** ** C58: mybinlog *)
(** [mybinlog list] logs in, asks for the files and returns them as the server named them. *)
Theorem C58_list : forall sha1 sha256 checks user pw s plugin nonce defs files rows hd ms last d,
  (forall x, length (sha1 x) = 20%nat) -> (forall x, length (sha256 x) = 32%nat) ->
  no_nul user -> N.of_nat (length user) < 2 ^ 20 ->
  defs_ok defs -> heading tool_caps defs hd -> text_rows_wire defs rows ms -> last_message tool_caps last ->
  Forall2 (fun f row => exists t more, row = Some (fst f) :: Some t :: more /\ utf8_valid (fst f) = true /\ unsigned_text (snd f) t /\ snd f < 2 ^ 64) files rows ->
  admits pw s plugin nonce (hd ++ ms ++ [last]) d ->
  exists c, exec_list sha1 sha256 checks user pw (Some s) = (Ok files, Some c) /\
    said c (logs_in sha1 user pw plugin nonce) [asks tool_caps (RqQuery (str "SHOW MASTER LOGS"))].
Proof. intros sha1 sha256 checks user pw s plugin nonce defs files rows hd ms last d H20 H32. exact (list_ok sha1 sha256 checks H20 H32 user pw s plugin nonce defs files rows hd ms last d). Qed.
Print Assumptions C58_list.
(** [mybinlog dml], from the command line and the two connections to the output: it prints what C44 says for the
    log of the file it was given, and has sent two logins, the request for the log and the questions for the tables. *)
Theorem C58_dml : forall sha1 sha256 fmt_f32 fmt_f64 crc checks compile uuid slave_id user pw filename s1 s2 df tf o reqs opening p es m items ls
    answers defs_of plugin1 nonce1 plugin2 nonce2 d d2,
  (forall x, length (sha1 x) = 20%nat) -> (forall x, length (sha256 x) = 32%nat) ->
  (forall bs, crc bs < 2 ^ 32) -> slave_id < 2 ^ 32 -> length uuid = 36%nat -> N.of_nat (length filename) < 2 ^ 30 ->
  no_nul user -> N.of_nat (length user) < 2 ^ 20 ->
  filter_is compile df (do_database o) -> filter_is compile tf (do_table o) ->
  opens_log tool_caps (bo_set_non_block true (bo_set_pos 4 (bo_set_filename filename bo_new))) uuid slave_id reqs opening p ->
  let sums := p_checksum p in
  Forall (log_event_ok sums) es -> Forall2 means (reported sums es) items -> eof_message tool_caps m ->
  admits pw s1 plugin1 nonce1 (opening ++ map (event_message crc sums) es ++ [m]) d ->
  consistent [] (scope (do_until_now o) items) ->
  printed fmt_f32 fmt_f64 (selected o) defs_of latest [] (scope (do_until_now o) items) = Ok ls ->
  let tms := lookups (selected o) latest [] (scope (do_until_now o) items) in
  Forall2 (fun tm ms => table_answer tool_caps (defs_of (tm_schema_name tm) (tm_table_name tm)) ms) tms answers -> Forall names_ok tms ->
  admits pw s2 plugin2 nonce2 (concat answers) d2 ->
  exists out c h, exec_dml sha1 sha256 fmt_f32 fmt_f64 crc checks compile uuid slave_id user pw filename (do_until_now o) df tf false (do_limit o) (Some s1) (Some s2) =
      (Ok tt, map text out, Some c, Some h) /\ limited (do_limit o) ls out /\
    said c (logs_in sha1 user pw plugin1 nonce1) reqs /\
    exists done rest, scope (do_until_now o) items = done ++ rest /\
      said h (logs_in sha1 user pw plugin2 nonce2) (flat_map (table_requests tool_caps) (lookups (selected o) latest [] done)).
Proof.
  intros sha1 sha256 fmt_f32 fmt_f64 crc checks compile uuid slave_id user pw filename s1 s2 df tf o reqs opening p es m items ls
    answers defs_of plugin1 nonce1 plugin2 nonce2 d d2 H20 H32 Hcrc Hid Hu Hf Hn Hl F1 F2 Ho sums He Hm Em A1 Hc L tms An Nm A2.
  exact (dml_end sha1 sha256 fmt_f32 fmt_f64 crc checks compile H20 H32 false [m] d (Ok tt) uuid slave_id user pw filename s1 s2 df tf o reqs opening p es items ls
    answers defs_of plugin1 nonce1 plugin2 nonce2 d2 Hcrc Hid Hu Hf Hn Hl F1 F2 Ho He Hm
    (or_introl (conj eq_refl (conj (ex_intro _ m (conj eq_refl Em)) eq_refl))) A1 Hc L An Nm A2).
Qed.
Print Assumptions C58_dml.
(** If the connection ends behind the last event - with --block it can end in no other way - the same lines are
    printed; the run fails with an I/O error unless the limit or the end of the log was reached before. *)
Theorem C58_dml_cut : forall sha1 sha256 fmt_f32 fmt_f64 crc checks compile block uuid slave_id user pw filename s1 s2 df tf o reqs opening p es items ls
    answers defs_of plugin1 nonce1 plugin2 nonce2 d d2,
  (forall x, length (sha1 x) = 20%nat) -> (forall x, length (sha256 x) = 32%nat) ->
  (forall bs, crc bs < 2 ^ 32) -> slave_id < 2 ^ 32 -> length uuid = 36%nat -> N.of_nat (length filename) < 2 ^ 30 ->
  no_nul user -> N.of_nat (length user) < 2 ^ 20 ->
  filter_is compile df (do_database o) -> filter_is compile tf (do_table o) ->
  opens_log tool_caps (bo_set_non_block (negb block) (bo_set_pos 4 (bo_set_filename filename bo_new))) uuid slave_id reqs opening p ->
  let sums := p_checksum p in
  Forall (log_event_ok sums) es -> Forall2 means (reported sums es) items -> no_message d ->
  admits pw s1 plugin1 nonce1 (opening ++ map (event_message crc sums) es) d ->
  consistent [] (scope (do_until_now o) items) ->
  printed fmt_f32 fmt_f64 (selected o) defs_of latest [] (scope (do_until_now o) items) = Ok ls ->
  let tms := lookups (selected o) latest [] (scope (do_until_now o) items) in
  Forall2 (fun tm ms => table_answer tool_caps (defs_of (tm_schema_name tm) (tm_table_name tm)) ms) tms answers -> Forall names_ok tms ->
  admits pw s2 plugin2 nonce2 (concat answers) d2 ->
  exists out c h, exec_dml sha1 sha256 fmt_f32 fmt_f64 crc checks compile uuid slave_id user pw filename (do_until_now o) df tf block (do_limit o) (Some s1) (Some s2) =
      (if stops_early o items ls then Ok tt else Err EIO, map text out, Some c, Some h) /\ limited (do_limit o) ls out /\
    said c (logs_in sha1 user pw plugin1 nonce1) reqs /\
    exists done rest, scope (do_until_now o) items = done ++ rest /\
      said h (logs_in sha1 user pw plugin2 nonce2) (flat_map (table_requests tool_caps) (lookups (selected o) latest [] done)).
Proof.
  intros sha1 sha256 fmt_f32 fmt_f64 crc checks compile block uuid slave_id user pw filename s1 s2 df tf o reqs opening p es items ls
    answers defs_of plugin1 nonce1 plugin2 nonce2 d d2 H20 H32 Hcrc Hid Hu Hf Hn Hl F1 F2 Ho sums He Hm Nm0 A1 Hc L tms An Nm A2.
  rewrite <- (app_nil_r (map _ es)) in A1.
  exact (dml_end sha1 sha256 fmt_f32 fmt_f64 crc checks compile H20 H32 block [] d _ uuid slave_id user pw filename s1 s2 df tf o reqs opening p es items ls
    answers defs_of plugin1 nonce1 plugin2 nonce2 d2 Hcrc Hid Hu Hf Hn Hl F1 F2 Ho He Hm
    (or_intror (conj eq_refl (conj Nm0 eq_refl))) A1 Hc L An Nm A2).
Qed.
Print Assumptions C58_dml_cut.
(** The output of [mybinlog dml], run as a script against the tables as they were, leaves them as they were after
    the log (see C55). *)
Theorem C58_replay : forall sha1 sha256 fmt_f32 fmt_f64 crc checks compile uuid slave_id user pw filename s1 s2 df tf o reqs opening p es m items
    answers defs_of plugin1 nonce1 plugin2 nonce2 d d2 esc before after,
  (forall x, length (sha1 x) = 20%nat) -> (forall x, length (sha256 x) = 32%nat) ->
  (forall bs, crc bs < 2 ^ 32) -> slave_id < 2 ^ 32 -> length uuid = 36%nat -> N.of_nat (length filename) < 2 ^ 30 ->
  no_nul user -> N.of_nat (length user) < 2 ^ 20 ->
  filter_is compile df (do_database o) -> filter_is compile tf (do_table o) -> do_limit o = 0 ->
  opens_log tool_caps (bo_set_non_block true (bo_set_pos 4 (bo_set_filename filename bo_new))) uuid slave_id reqs opening p ->
  let sums := p_checksum p in
  Forall (log_event_ok sums) es -> Forall2 means (reported sums es) items -> eof_message tool_caps m ->
  admits pw s1 plugin1 nonce1 (opening ++ map (event_message crc sums) es ++ [m]) d ->
  consistent [] (scope (do_until_now o) items) ->
  logged_history fmt_f32 fmt_f64 esc (selected o) defs_of [] (scope (do_until_now o) items) before after ->
  let tms := lookups (selected o) latest [] (scope (do_until_now o) items) in
  Forall2 (fun tm ms => table_answer tool_caps (defs_of (tm_schema_name tm) (tm_table_name tm)) ms) tms answers -> Forall names_ok tms ->
  admits pw s2 plugin2 nonce2 (concat answers) d2 ->
  exists out c h, exec_dml sha1 sha256 fmt_f32 fmt_f64 crc checks compile uuid slave_id user pw filename (do_until_now o) df tf false (do_limit o) (Some s1) (Some s2) =
      (Ok tt, out, Some c, Some h) /\ run_script esc before out = Some after.
Proof.
  intros sha1 sha256 fmt_f32 fmt_f64 crc checks compile uuid slave_id user pw filename s1 s2 df tf o reqs opening p es m items
    answers defs_of plugin1 nonce1 plugin2 nonce2 d d2 esc before after H20 H32 Hcrc Hid Hu Hf Hn Hl F1 F2 Hlim Ho sums He Hm Em A1 Hc Hlog tms An Nm A2.
  destruct (log_replayed _ _ _ _ _ _ _ _ _ Hlog) as (stmts & P & R).
  destruct (C58_dml sha1 sha256 fmt_f32 fmt_f64 crc checks compile uuid slave_id user pw filename s1 s2 df tf o reqs opening p es m items (map LStmt stmts)
    answers defs_of plugin1 nonce1 plugin2 nonce2 d d2 H20 H32 Hcrc Hid Hu Hf Hn Hl F1 F2 Ho He Hm Em A1 Hc P An Nm A2) as (out & c & h & E & L & _).
  exists (map text out), c, h. split; [exact E|]. unfold limited in L. rewrite Hlim in L. cbn in L. subst out.
  rewrite map_map. cbn [text]. rewrite map_id. exact R.
Qed.
Print Assumptions C58_replay.

(** *** When a program cannot start *)
(** no connection: an I/O error, nothing printed, nothing sent *)
Theorem C58_no_connection : forall sha1 sha256 fmt_f32 fmt_f64 crc checks compile uuid random_id user pw filename un df tf block limit s2,
  exec_list sha1 sha256 checks user pw None = (Err EIO, None) /\
  exec_dml sha1 sha256 fmt_f32 fmt_f64 crc checks compile uuid random_id user pw filename un df tf block limit None s2 = (Err EIO, [], None, None) /\
  watch sha1 sha256 crc checks uuid random_id (CTcp user pw) None = (Err EIO, [], [], None).
Proof. repeat split. Qed.
Print Assumptions C58_no_connection.
(** a refused login ends every program with an error and no output; [dml] opens its second connection only after the
    first login *)
Theorem C58_refused : forall sha1 sha256 fmt_f32 fmt_f64 crc checks compile uuid random_id user pw filename un df tf block limit s,
  (forall x, length (sha1 x) = 20%nat) -> (forall x, length (sha256 x) = 32%nat) ->
  no_nul user -> N.of_nat (length user) < 2 ^ 20 -> rejects s ->
  (exists c, exec_list sha1 sha256 checks user pw (Some s) = (Err EPacket, Some c)) /\
  (forall s2, exists c, exec_dml sha1 sha256 fmt_f32 fmt_f64 crc checks compile uuid random_id user pw filename un df tf block limit (Some s) s2 =
     (Err EPacket, [], Some c, None)) /\
  (forall s1 plugin nonce ps d, admits pw s1 plugin nonce ps d -> exists c h,
     exec_dml sha1 sha256 fmt_f32 fmt_f64 crc checks compile uuid random_id user pw filename un df tf block limit (Some s1) (Some s) =
       (Err EPacket, [], Some c, Some h) /\ said c (logs_in sha1 user pw plugin nonce) []) /\
  (exists c, watch sha1 sha256 crc checks uuid random_id (CTcp user pw) (Some s) = (Err EPacket, [], [], Some c)).
Proof.
  intros sha1 sha256 fmt_f32 fmt_f64 crc checks compile uuid random_id user pw filename un df tf block limit s H20 H32 Hn Hl Hr.
  destruct (connect_rejected sha1 sha256 checks H20 H32 user pw s Hn Hl Hr) as (c & E).
  split; [exists c; unfold exec_list; rewrite E; reflexivity|]. split; [intros s2; exists c; unfold exec_dml; rewrite E; reflexivity|].
  split; [|exists c; unfold watch; rewrite E; reflexivity].
  intros s1 plugin nonce ps d A. destruct (connect_ok sha1 sha256 checks H20 H32 user pw s1 plugin nonce ps d Hn Hl A) as (c1 & m & w & E1 & O & W & L & _).
  exists c1, c. unfold exec_dml. rewrite E1, E. split; [reflexivity|].
  exists m, w, [], []. repeat split; try constructor; [exact L|exact W|]. rewrite app_nil_r. exact O.
Qed.
Print Assumptions C58_refused.
(** a filter that is no regular expression ends [dml] with an error; it has logged in twice and asked for nothing *)
Theorem C58_bad_filter : forall sha1 sha256 fmt_f32 fmt_f64 crc checks compile uuid random_id user pw filename un df tf block limit s1 s2
    plugin1 nonce1 ps1 d1 plugin2 nonce2 ps2 d2,
  (forall x, length (sha1 x) = 20%nat) -> (forall x, length (sha256 x) = 32%nat) ->
  no_nul user -> N.of_nat (length user) < 2 ^ 20 ->
  admits pw s1 plugin1 nonce1 ps1 d1 -> admits pw s2 plugin2 nonce2 ps2 d2 -> filter_bad compile df \/ filter_bad compile tf ->
  exists c h, exec_dml sha1 sha256 fmt_f32 fmt_f64 crc checks compile uuid random_id user pw filename un df tf block limit (Some s1) (Some s2) =
      (Err ECustom, [], Some c, Some h) /\
    said c (logs_in sha1 user pw plugin1 nonce1) [] /\ said h (logs_in sha1 user pw plugin2 nonce2) [].
Proof.
  intros sha1 sha256 fmt_f32 fmt_f64 crc checks compile uuid random_id user pw filename un df tf block limit s1 s2 plugin1 nonce1 ps1 d1 plugin2 nonce2 ps2 d2
    H20 H32 Hn Hl A1 A2 B.
  destruct (connect_ok sha1 sha256 checks H20 H32 user pw s1 plugin1 nonce1 ps1 d1 Hn Hl A1) as (c & m & w & E & O & W & L & _).
  destruct (connect_ok sha1 sha256 checks H20 H32 user pw s2 plugin2 nonce2 ps2 d2 Hn Hl A2) as (h & m' & w' & E' & O' & W' & L' & _).
  exists c, h. unfold exec_dml. rewrite E, E'. split.
  - destruct B as [(x & -> & X)|(x & -> & X)]; cbn [compile_opt]; rewrite X; [reflexivity|].
    unfold compile_opt. destruct df as [y|]; [destruct (compile y)|]; reflexivity.
  - split; [exists m, w, [], []|exists m', w', [], []]; repeat split; try constructor; try assumption; rewrite app_nil_r; assumption.
Qed.
Print Assumptions C58_bad_filter.

(** ** C58: mybinmsg *)
(** It logs in, asks for the files, requests the log from its start and reports every supported event in order, until
    the connection ends. *)
Theorem C58_watch : forall sha1 sha256 crc checks uuid random_id user pw s plugin nonce defs files rows hd ms last reqs opening p es d,
  (forall x, length (sha1 x) = 20%nat) -> (forall x, length (sha256 x) = 32%nat) ->
  (forall bs, crc bs < 2 ^ 32) -> random_id < 2 ^ 32 -> length uuid = 36%nat -> no_nul user -> N.of_nat (length user) < 2 ^ 20 ->
  defs_ok defs -> heading tool_caps defs hd -> text_rows_wire defs rows ms -> last_message tool_caps last ->
  Forall2 (fun f row => exists t more, row = Some (fst f) :: Some t :: more /\ utf8_valid (fst f) = true /\ unsigned_text (snd f) t /\ snd f < 2 ^ 64) files rows ->
  opens_log tool_caps bo_new uuid random_id reqs opening p ->
  Forall (log_event_ok (p_checksum p)) es -> no_message d ->
  admits pw s plugin nonce ((hd ++ ms ++ [last]) ++ opening ++ map (event_message crc (p_checksum p)) es) d ->
  exists c, watch sha1 sha256 crc checks uuid random_id (CTcp user pw) (Some s) = (Err EIO, files, reported (p_checksum p) es, Some c) /\
    said c (logs_in sha1 user pw plugin nonce) (asks tool_caps (RqQuery (str "SHOW MASTER LOGS")) :: reqs).
Proof.
  intros sha1 sha256 crc checks uuid random_id user pw s plugin nonce defs files rows hd ms last reqs opening p es d H20 H32.
  exact (watch_ok sha1 sha256 crc checks H20 H32 uuid random_id user pw s plugin nonce defs files rows hd ms last reqs opening p es d).
Qed.
Print Assumptions C58_watch.
(** It cannot end well once it has reported an event: it watches until something fails. *)
Theorem C58_watch_ends : forall sha1 sha256 crc checks uuid random_id conf s files es c,
  watch sha1 sha256 crc checks uuid random_id conf s = (Ok tt, files, es, c) -> es = [].
Proof. exact watch_ends. Qed.
Print Assumptions C58_watch_ends.
(** Finding: with the connection by socket file that its configuration offers, it panics. *)
Theorem C58_unix_refuted : forall sha1 sha256 crc checks uuid random_id s,
  watch sha1 sha256 crc checks uuid random_id CUnix s = (Panic PUnwrap, [], [], None).
Proof. reflexivity. Qed.
Print Assumptions C58_unix_refuted.

(** ** C58: networks *)
(** The same bytes in other portions, with other waiting: the same result and the same output. *)
Theorem C58_schedules : forall sha1 sha256 fmt_f32 fmt_f64 crc checks compile uuid random_id user pw filename un df tf block limit conf s t s' t',
  same_bytes s t -> same_bytes s' t' ->
  fst (exec_list sha1 sha256 checks user pw (Some s)) = fst (exec_list sha1 sha256 checks user pw (Some t)) /\
  fst (fst (exec_dml sha1 sha256 fmt_f32 fmt_f64 crc checks compile uuid random_id user pw filename un df tf block limit (Some s) (Some s'))) =
    fst (fst (exec_dml sha1 sha256 fmt_f32 fmt_f64 crc checks compile uuid random_id user pw filename un df tf block limit (Some t) (Some t'))) /\
  fst (watch sha1 sha256 crc checks uuid random_id conf (Some s)) = fst (watch sha1 sha256 crc checks uuid random_id conf (Some t)).
Proof.
  assert (F : forall s t, same_bytes s t -> fewer_bytes [] s t).
  { intros s t (D & A & B). split; [rewrite app_nil_r; symmetry; exact D|]. split; assumption. }
  intros until t'. intros S S'. apply F in S. apply F in S'.
  pose proof (list_agree sha1 sha256 checks user pw [] s t S) as L. cbv zeta in L.
  pose proof (dml_agree sha1 sha256 fmt_f32 fmt_f64 crc checks compile uuid random_id user pw filename un df tf block limit [] [] s s' t t' S S') as D. cbv zeta in D.
  pose proof (watch_agree sha1 sha256 fmt_f32 fmt_f64 crc checks compile uuid random_id conf [] s t S) as W. cbv zeta in W.
  split; [destruct L as [L|[L1 L2]]; [exact L|rewrite L1, (L2 eq_refl); reflexivity]|]. unfold result3, lines, result2, files, events in *. split.
  - destruct (exec_dml sha1 sha256 fmt_f32 fmt_f64 crc checks compile uuid random_id user pw filename un df tf block limit (Some s) (Some s')) as [[[r1 o1] ?] ?].
    destruct (exec_dml sha1 sha256 fmt_f32 fmt_f64 crc checks compile uuid random_id user pw filename un df tf block limit (Some t) (Some t')) as [[[r2 o2] ?] ?].
    cbn [fst snd] in *. destruct D as [[-> ->]|(-> & _ & D)]; [reflexivity|]. destruct (D eq_refl eq_refl) as [-> ->]. reflexivity.
  - destruct (watch sha1 sha256 crc checks uuid random_id conf (Some s)) as [[[r1 f1] e1] ?], (watch sha1 sha256 crc checks uuid random_id conf (Some t)) as [[[r2 f2] e2] ?].
    cbn [fst snd] in *. destruct W as [(-> & -> & ->)|(-> & _ & _ & W)]; [reflexivity|]. destruct (W eq_refl) as (-> & -> & ->). reflexivity.
Qed.
Print Assumptions C58_schedules.
(** If the server had sent more, a run would have been the same, or it fails with an I/O error and its output is the
    beginning of what it would have been. *)
Theorem C58_lost : forall sha1 sha256 fmt_f32 fmt_f64 crc checks compile uuid random_id user pw filename un df tf block limit conf l l' s t s' t',
  fewer_bytes l s t -> fewer_bytes l' s' t' ->
  (let x := fst (exec_list sha1 sha256 checks user pw (Some s)) in x = fst (exec_list sha1 sha256 checks user pw (Some t)) \/ x = Err EIO) /\
  (let '(r, out, _, _) := exec_dml sha1 sha256 fmt_f32 fmt_f64 crc checks compile uuid random_id user pw filename un df tf block limit (Some s) (Some s') in
   let '(r', out', _, _) := exec_dml sha1 sha256 fmt_f32 fmt_f64 crc checks compile uuid random_id user pw filename un df tf block limit (Some t) (Some t') in
   (r = r' /\ out = out') \/ (r = Err EIO /\ exists more, out' = out ++ more)) /\
  (let '(r, files, es, _) := watch sha1 sha256 crc checks uuid random_id conf (Some s) in
   let '(r', files', es', _) := watch sha1 sha256 crc checks uuid random_id conf (Some t) in
   (r = r' /\ files = files' /\ es = es') \/
   (r = Err EIO /\ (files = [] /\ es = [] \/ files = files') /\ exists more, es' = es ++ more)).
Proof.
  intros until t'. intros S S'.
  pose proof (list_agree sha1 sha256 checks user pw l s t S) as L. cbv zeta in L.
  pose proof (dml_agree sha1 sha256 fmt_f32 fmt_f64 crc checks compile uuid random_id user pw filename un df tf block limit l l' s s' t t' S S') as D. cbv zeta in D.
  pose proof (watch_agree sha1 sha256 fmt_f32 fmt_f64 crc checks compile uuid random_id conf l s t S) as W. cbv zeta in W.
  split; [cbv zeta; tauto|]. unfold result3, lines, result2, files, events in *. split.
  - destruct (exec_dml sha1 sha256 fmt_f32 fmt_f64 crc checks compile uuid random_id user pw filename un df tf block limit (Some s) (Some s')) as [[[r1 o1] ?] ?].
    destruct (exec_dml sha1 sha256 fmt_f32 fmt_f64 crc checks compile uuid random_id user pw filename un df tf block limit (Some t) (Some t')) as [[[r2 o2] ?] ?].
    cbn [fst snd] in *. tauto.
  - destruct (watch sha1 sha256 crc checks uuid random_id conf (Some s)) as [[[r1 f1] e1] ?], (watch sha1 sha256 crc checks uuid random_id conf (Some t)) as [[[r2 f2] e2] ?].
    cbn [fst snd] in *. tauto.
Qed.
Print Assumptions C58_lost.
(** Whatever a server sends, every run comes to an end - but for one kind of row event. *)
Theorem C58_returns : forall sha1 sha256 fmt_f32 fmt_f64 crc checks compile uuid random_id user pw filename un df tf block limit conf s1 s2,
  fst (exec_list sha1 sha256 checks user pw s1) <> Loop /\
  fst (fst (fst (watch sha1 sha256 crc checks uuid random_id conf s1))) <> Loop /\
  (fst (fst (fst (exec_dml sha1 sha256 fmt_f32 fmt_f64 crc checks compile uuid random_id user pw filename un df tf block limit s1 s2))) = Loop ->
   exists s0 st d d' e, s1 = Some s0 /\ whole_messages (conn_new s0) d /\ next_event crc st d = (Ok (Some e), d') /\ endless e).
Proof.
  intros. split; [apply (list_fin sha1 sha256 crc)|]. split; [apply (watch_returns sha1 sha256 fmt_f32 fmt_f64 crc checks compile)|]. apply dml_returns.
Qed.
Print Assumptions C58_returns.
(** An event that [dml] cannot turn into statements ends it in the way C44 says, after the lines for all events before. *)
Theorem C58_failure : forall sha1 sha256 fmt_f32 fmt_f64 crc checks compile block uuid slave_id user pw filename s1 s2 df tf o reqs opening p es e ev ps d items ls
    answers defs_of plugin1 nonce1 plugin2 nonce2 d2 r,
  (forall x, length (sha1 x) = 20%nat) -> (forall x, length (sha256 x) = 32%nat) ->
  (forall bs, crc bs < 2 ^ 32) -> slave_id < 2 ^ 32 -> length uuid = 36%nat -> N.of_nat (length filename) < 2 ^ 30 ->
  no_nul user -> N.of_nat (length user) < 2 ^ 20 ->
  filter_is compile df (do_database o) -> filter_is compile tf (do_table o) ->
  opens_log tool_caps (bo_set_non_block (negb block) (bo_set_pos 4 (bo_set_filename filename bo_new))) uuid slave_id reqs opening p ->
  let sums := p_checksum p in
  Forall (log_event_ok sums) (es ++ [e]) -> Forall2 means (reported sums es) items -> parsed sums e = Some ev ->
  admits pw s1 plugin1 nonce1 (opening ++ map (event_message crc sums) (es ++ [e]) ++ ps) d ->
  (In IRotate items -> do_until_now o = true) ->
  printed fmt_f32 fmt_f64 (selected o) defs_of earliest [] items = Ok ls -> (do_limit o = 0 \/ n_stmts ls < do_limit o) ->
  let tms := lookups (selected o) earliest [] items in
  Forall2 (fun tm ms => table_answer tool_caps (defs_of (tm_schema_name tm) (tm_table_name tm)) ms) tms answers -> Forall names_ok tms ->
  admits pw s2 plugin2 nonce2 (concat answers) d2 ->
  fails fmt_f32 fmt_f64 (selected o) defs_of (rev items) ev r ->
  exists c h, exec_dml sha1 sha256 fmt_f32 fmt_f64 crc checks compile uuid slave_id user pw filename (do_until_now o) df tf block (do_limit o) (Some s1) (Some s2) =
      (r, map text ls, Some c, Some h) /\
    said c (logs_in sha1 user pw plugin1 nonce1) reqs /\
    said h (logs_in sha1 user pw plugin2 nonce2) (flat_map (table_requests tool_caps) tms).
Proof.
  intros sha1 sha256 fmt_f32 fmt_f64 crc checks compile block uuid slave_id user pw filename s1 s2 df tf o reqs opening p es e ev ps d items ls
    answers defs_of plugin1 nonce1 plugin2 nonce2 d2 r H20 H32.
  exact (dml_fails sha1 sha256 fmt_f32 fmt_f64 crc checks compile H20 H32 block uuid slave_id user pw filename s1 s2 df tf o reqs opening p es e ev ps d items ls
    answers defs_of plugin1 nonce1 plugin2 nonce2 d2 r).
Qed.
Print Assumptions C58_failure.
(** Finding: rows of a known, selected table in which no column is present do keep [dml] from ever ending ([fails] with
    [Loop], see C58_failure). *)
Theorem C58_endless_refuted : forall fmt_f32 fmt_f64 passes defs_of recent hdr c table_id flags extra n bm more tm,
  c = RInsert \/ c = RDelete -> bitmap_of (repeat false n) bm -> N.of_nat n < 2 ^ 32 - 7 -> more <> [] ->
  table_id < 2 ^ 48 -> flags < 2 ^ 16 -> N.of_nat (length extra) + 2 < 2 ^ 16 ->
  earliest recent table_id = Some tm -> passes tm = true ->
  let data := rows_event_bytes table_id flags extra ((extra ++ wlenenc (N.of_nat n)) ++ bm ++ more) in
  fails fmt_f32 fmt_f64 passes defs_of recent (mk_event (rows_kind c) hdr data) Loop.
Proof.
  intros fmt_f32 fmt_f64 passes defs_of recent hdr c table_id flags extra n bm more tm Hc Hb Hn Hm Ht Hf He Hk Hp data.
  destruct (rows_data_read table_id flags extra ((extra ++ wlenenc (N.of_nat n)) ++ bm ++ more) Ht Hf He) as (R1 & _ & R3).
  apply fails_row with (d := mk_rd2 table_id flags (N.of_nat (length extra) + 2) ((extra ++ wlenenc (N.of_nat n)) ++ bm ++ more)) (tm := tm).
  - destruct Hc as [->| ->]; cbn [rows_reader]; unfold data; [rewrite R1|rewrite R3]; reflexivity.
  - exact Hk.
  - exact Hp.
  - destruct Hc as [->| ->]; cbn [row_lines]; rewrite (rows_loop n (tm_col_metas tm) bm more table_id flags extra Hb Hn Hm); reflexivity.
Qed.
Print Assumptions C58_endless_refuted.

(** ** Examples *)
(** a server with all options: a greeting, an OK for the login, then [ps]; every message comes in a portion of its own *)
Definition ex_nonce : bytes := repeat x41 8 ++ repeat x42 12.
Definition ex_greeting (cap : N) : bytes := greeting_wire (str "8.0.30") 9 (repeat x41 8) cap 33 2 21 (repeat x42 12 ++ [x00]) (str "mysql_native_password").
Definition ex_ok : bytes := ok_wire tool_caps 0 0 0 2 0 [] [].
Definition ex_eof : bytes := ok_wire tool_caps 0xfe 0 0 2 0 [] [].
Definition ex_server (cap : N) (ps : list bytes) : socket :=
  (RPending :: RData (wle 3 (N.of_nat (length (ex_greeting cap))) ++ x00 :: ex_greeting cap) :: chunks (ex_ok :: ps), [WAccept 3; WPending]).
Lemma ex_admits cap ps pw : cap = tool_caps \/ cap = classic_caps -> Forall (fun p => N.of_nat (length p) < full) ps ->
  admits pw (ex_server cap ps) (str "mysql_native_password") ex_nonce ps [].
Proof.
  intros Hc Hp. apply ad_native with (g := ex_greeting cap) (ok := ex_ok).
  - reflexivity.
  - apply gr; [|reflexivity]. unfold greeting_ok. split; [cbn; unfold no_nul; cbn; intuition discriminate|].
    destruct Hc as [-> | ->]; (repeat split; try reflexivity; discriminate).
  - exists 0, 0, 2, 0, [], []. repeat split.
  - cbn. split; [discriminate|exact I].
  - destruct (chunks_await (ex_ok :: ps) [] [] 0 0 0) as (w & W & D); [constructor; [reflexivity|exact Hp]|].
    exists (wle 3 (N.of_nat (length (ex_greeting cap))) ++ x00 :: ex_greeting cap), w.
    split; [apply single_wire; destruct Hc as [-> | ->]; reflexivity|]. split; [exact W|].
    cbn [conn_new c_rd fst ex_server delivered]. cbn [c_rd] in D. rewrite app_nil_r in *.
    destruct (wle 3 (N.of_nat (length (ex_greeting cap))) ++ x00 :: ex_greeting cap) eqn:Z.
    + destruct (wle 3 (N.of_nat (length (ex_greeting cap)))); discriminate.
    + rewrite D. reflexivity.
Qed.
(** how it answers when a log is requested; the log has checksums *)
Definition ex_uuid : bytes := str "3e11fa47-71ca-11e1-9e33-c80aa9429562".
Definition ex_column : column_def := mk_cd (str "def") [] [] [] (str "n") [] 63 20 TVarString 0 0 [].
Definition ex_var (v : bytes) : list bytes :=
  (wlenenc 2 :: map coldef_wire [ex_column; ex_column]) ++ [text_row [Some (str "name"); Some v]] ++ [ex_eof].
Definition ex_set (id : N) : list bytes := (prepare_ok_wire id 0 1 0 :: [coldef_wire ex_column]) ++ [ex_ok].
Definition ex_rotate : bytes := x00 :: event_front true (mk_log_event 0 4 1 0 32 (wle 8 4 ++ str "bin.1")) ++ [x00; x00; x00; x00].
Definition ex_fd : fde_spec := mk_fde_spec 4 (str "5.7.30-log") 0 19 (repeat x08 14 ++ [x5f] ++ repeat x08 23) (Some (1, [x01; x02; x03; x04])).
Definition ex_description : bytes := x00 :: event_front false (mk_log_event 0 15 1 0 0 (fde_body ex_fd)).
Definition ex_opening : list bytes :=
  (ex_var (str "1") ++ ex_set 1 ++ ex_var (str "CRC32") ++ ex_set 2 ++ ex_var (str "OFF") ++ ex_var ex_uuid ++ ex_set 3 ++ [ex_ok]) ++ [ex_rotate; ex_description].
Lemma ex_variable v : N.of_nat (length v) < 2 ^ 64 -> variable_answer tool_caps v (ex_var v).
Proof.
  intros H. exists [ex_column; ex_column], (Some (str "name")), [], [],
    (wlenenc 2 :: map coldef_wire [ex_column; ex_column]), [text_row [Some (str "name"); Some v]], ex_eof.
  split; [split; [discriminate|split; [reflexivity|repeat constructor]]|].
  split; [exists []; split; reflexivity|].
  split; [constructor; [split; [reflexivity|split; [|reflexivity]]|constructor]|].
  - constructor; [reflexivity|]. constructor; [exact H|constructor].
  - split; [split; [constructor; reflexivity|reflexivity]|reflexivity].
Qed.
Lemma ex_setting id : id < 2 ^ 32 -> set_answer tool_caps id (ex_set id).
Proof.
  intros H. exists [ex_column], 0, [coldef_wire ex_column], ex_ok.
  split; [exact H|]. split; [reflexivity|]. split; [repeat constructor|]. split; [reflexivity|].
  split; [exists []; split; reflexivity|]. split; [constructor; reflexivity|reflexivity].
Qed.
Lemma ex_opens o : exists reqs, opens_log tool_caps o ex_uuid 7 reqs ex_opening (described_parser ex_fd).
Proof.
  eexists. apply ol with (sum := true) (algorithm := str "CRC32") (mode := str "OFF") (master_id := 1)
    (ans := ex_var (str "1") ++ ex_set 1 ++ ex_var (str "CRC32") ++ ex_set 2 ++ ex_var (str "OFF") ++ ex_var ex_uuid ++ ex_set 3 ++ [ex_ok]).
  - apply (set_up_intro tool_caps o ex_uuid 7 1 (str "1") (str "CRC32") (str "OFF") ex_uuid 1 2 3);
      first [reflexivity | apply ex_variable; reflexivity | apply ex_setting; reflexivity | idtac].
    + exists 0%nat, []. split; [reflexivity|]. split; [reflexivity|left; reflexivity].
    + cbn. repeat constructor.
    + constructor; reflexivity.
  - split; reflexivity.
  - exists (mk_log_event 0 4 1 0 32 (wle 8 4 ++ str "bin.1")), 4, (str "bin.1"), [x00; x00; x00; x00]. repeat split.
  - exists (mk_log_event 0 15 1 0 0 (fde_body ex_fd)). split; [repeat split|]. split; [reflexivity|]. split; [|split; reflexivity].
    split; [reflexivity|]. split; [cbn; repeat constructor|]. split; [cbn; unfold no_nul; cbn; intuition discriminate|].
    split; [reflexivity|]. split; [reflexivity|]. split; [reflexivity|]. split; [reflexivity|]. split; [reflexivity|].
    split; reflexivity.
Qed.
(** tables t and v: two rows of t are inserted, one row of v deleted, one of t updated and one deleted *)
Definition ex_map (id : N) (name : bytes) : bytes := wle 6 id ++ wle 2 1 ++ table_map_bytes (str "d") name [SBigint; STinyint] [x00].
Definition ex_rows (id : N) (rows : bytes) : bytes := wle 6 id ++ wle 2 1 ++ wle 2 2 ++ wlenenc 2 ++ rows.
Definition ex_payloads : list bytes :=
  [[xff] ++ [xfc] ++ wle 8 7 ++ [x05] ++ [xfe] ++ wle 8 8; [xff] ++ [xfc] ++ wle 8 7 ++ [x05];
   [xff; xff] ++ [xfc] ++ wle 8 7 ++ [x05] ++ [xfc] ++ wle 8 7 ++ [xff]; [xff] ++ [xfe] ++ wle 8 8].
Definition ex_payload (i : nat) : bytes := nth i ex_payloads [].
Definition ex_log : list log_event :=
  [mk_log_event 1 19 2 300 0 (ex_map 9 (str "t")); mk_log_event 1 30 2 400 0 (ex_rows 9 (ex_payload 0));
   mk_log_event 1 19 2 420 0 (ex_map 4 (str "v")); mk_log_event 1 32 2 450 0 (ex_rows 4 (ex_payload 1));
   mk_log_event 1 31 2 500 0 (ex_rows 9 (ex_payload 2)); mk_log_event 1 32 2 600 0 (ex_rows 9 (ex_payload 3))].
Definition ex_tm (name : bytes) : table_map := mk_table_map (str "d") name [MLongLong; MTiny] [x00].
Definition ex_items : list item :=
  [IMap 9 (ex_tm (str "t")); IRows RInsert 9 (mk_rd2 9 1 2 (wlenenc 2 ++ ex_payload 0)) 400;
   IMap 4 (ex_tm (str "v")); IRows RDelete 4 (mk_rd2 4 1 2 (wlenenc 2 ++ ex_payload 1)) 450;
   IRows RUpdate 9 (mk_rd2 9 1 2 (wlenenc 2 ++ ex_payload 2)) 500; IRows RDelete 9 (mk_rd2 9 1 2 (wlenenc 2 ++ ex_payload 3)) 600].
Definition ex_def (name : bytes) (flags : N) (ty : column_type) : column_def := mk_cd (str "def") [] [] [] name [] 63 20 ty flags 0 [].
Definition ex_defs (db tbl : bytes) : list column_def := [ex_def (str "id") 7 TLongLong; ex_def (str "n") 0 TTiny].
Definition ex_answer : list bytes := ex_ok :: map field_wire (ex_defs (str "d") (str "t")) ++ [ex_eof].
Definition ex_compile (s : bytes) : option (bytes -> bool) := if beqb s (str "(") then None else Some (beqb s).
Definition ex_options : dml_options := mk_do false None (ex_compile (str "t")) 0.
Definition ex_script : list bytes :=
  [str "INSERT INTO `d`.`t` (`id`,`n`) VALUES (7,5)"; str "INSERT INTO `d`.`t` (`id`,`n`) VALUES (8,null)";
   str "UPDATE `d`.`t` SET `id` = 7, `n` = -1 WHERE `id` = 7"; str "DELETE FROM `d`.`t` WHERE `id` = 8"].
Definition no_float (n : N) : bytes := [].
Definition ex_source (tail : list bytes) : socket := ex_server tool_caps (ex_opening ++ map (event_message crc32 true) ex_log ++ tail).
Definition ex_dml (filter : bytes) (block : bool) (s1 s2 : socket) :=
  exec_dml sha1 sha256 no_float no_float crc32 true ex_compile ex_uuid 7 (str "root") (str "pw") (str "bin.1") false None (Some filter) block 0 (Some s1) (Some s2).
(** a row event without present columns behind the log *)
Definition ex_endless : log_event := mk_log_event 1 30 2 700 0 (ex_rows 9 [x00; x00]).
Example C58_example_runs :
  fst (fst (ex_dml (str "t") false (ex_source [ex_eof]) (ex_server tool_caps ex_answer))) = (Ok tt, ex_script) /\
  fst (fst (ex_dml (str "t") true (ex_source []) (ex_server tool_caps ex_answer))) = (Err EIO, ex_script) /\
  fst (fst (ex_dml (str "(") true (ex_source []) (ex_server tool_caps ex_answer))) = (Err ECustom, []) /\
  fst (fst (ex_dml (str "t") true (ex_source [event_message crc32 true ex_endless]) (ex_server tool_caps ex_answer))) = (Loop, ex_script).
Proof. vm_compute. repeat split. Qed.
(** the hypotheses of C58_dml, C58_dml_cut, C58_failure and C58_bad_filter are met *)
Lemma ex_small l : forallb (fun p => N.of_nat (length p) <? full) l = true -> Forall (fun p : bytes => N.of_nat (length p) < full) l.
Proof. rewrite forallb_forall, Forall_forall. intros H x Hx. apply N.ltb_lt, H, Hx. Qed.
Example C58_example_meets :
  (exists reqs, opens_log tool_caps (bo_set_non_block true (bo_set_pos 4 (bo_set_filename (str "bin.1") bo_new))) ex_uuid 7 reqs ex_opening (described_parser ex_fd)) /\
  p_checksum (described_parser ex_fd) = true /\ length ex_uuid = 36%nat /\
  (forall x, length (sha1 x) = 20%nat) /\ (forall x, length (sha256 x) = 32%nat) /\ (forall bs, crc32 bs < 2 ^ 32) /\ no_nul (str "root") /\
  filter_is ex_compile None (do_database ex_options) /\ filter_is ex_compile (Some (str "t")) (do_table ex_options) /\ filter_bad ex_compile (Some (str "(")) /\
  Forall (log_event_ok true) (ex_log ++ [ex_endless]) /\ Forall2 means (reported true ex_log) ex_items /\ eof_message tool_caps ex_eof /\
  admits (str "pw") (ex_source [ex_eof]) (str "mysql_native_password") ex_nonce (ex_opening ++ map (event_message crc32 true) ex_log ++ [ex_eof]) [] /\
  admits (str "pw") (ex_source []) (str "mysql_native_password") ex_nonce (ex_opening ++ map (event_message crc32 true) ex_log ++ []) [] /\ no_message [] /\
  consistent [] ex_items /\ scope false ex_items = ex_items /\
  printed no_float no_float (selected ex_options) ex_defs latest [] ex_items = Ok (map LStmt ex_script) /\
  printed no_float no_float (selected ex_options) ex_defs earliest [] ex_items = Ok (map LStmt ex_script) /\
  lookups (selected ex_options) latest [] ex_items = [ex_tm (str "t")] /\ lookups (selected ex_options) earliest [] ex_items = [ex_tm (str "t")] /\
  table_answer tool_caps (ex_defs (str "d") (str "t")) ex_answer /\ names_ok (ex_tm (str "t")) /\
  admits (str "pw") (ex_server tool_caps ex_answer) (str "mysql_native_password") ex_nonce ex_answer [] /\
  (exists ev, parsed true ex_endless = Some ev /\ fails no_float no_float (selected ex_options) ex_defs (rev ex_items) ev Loop).
Proof.
  split; [apply ex_opens|]. split; [reflexivity|]. split; [reflexivity|]. split; [exact sha1_length|]. split; [exact sha256_length|].
  split; [exact crc32_lt|]. split; [unfold no_nul; cbn; intuition discriminate|]. split; [reflexivity|]. split; [split; [discriminate|reflexivity]|].
  split; [exists (str "("); split; reflexivity|].
  split; [unfold ex_log; repeat constructor|]. split.
  { assert (R : forall c h data d i p, fst (rows_reader c data) = Ok d -> rd2_table_id d = i -> h_next_pos h = p ->
      means (mk_event (rows_kind c) h data) (IRows c i d p)).
    { intros c h data d i p E <- <-. constructor. exact E. }
    assert (T : forall h data d i tm, fst (read_table_map_data data) = Ok d -> table_map_of d = Ok tm -> tmd_table_id d = i ->
      means (mk_event KTableMap h data) (IMap i tm)).
    { intros h data d i tm E1 E2 <-. constructor; assumption. }
    unfold ex_items. apply Forall2_cons; [eapply T; [vm_compute; reflexivity|vm_compute; reflexivity|reflexivity]|].
    apply Forall2_cons; [apply (R RInsert); vm_compute; reflexivity|].
    apply Forall2_cons; [eapply T; [vm_compute; reflexivity|vm_compute; reflexivity|reflexivity]|].
    apply Forall2_cons; [apply (R RDelete); vm_compute; reflexivity|].
    apply Forall2_cons; [apply (R RUpdate); vm_compute; reflexivity|].
    apply Forall2_cons; [apply (R RDelete); vm_compute; reflexivity|]. apply Forall2_nil. }
  split; [apply eofm_ok; reflexivity|]. split; [apply ex_admits; [left; reflexivity|apply ex_small; vm_compute; reflexivity]|].
  split; [apply ex_admits; [left; reflexivity|apply ex_small; vm_compute; reflexivity]|]. split; [exact nil_no_message|].
  split; [cbn; repeat split|]. split; [reflexivity|]. split; [vm_compute; reflexivity|]. split; [vm_compute; reflexivity|].
  split; [vm_compute; reflexivity|]. split; [vm_compute; reflexivity|]. split.
  { split; [repeat constructor; reflexivity|]. exists ex_ok, ex_eof. split; [constructor; reflexivity|]. split; [apply eofm_ok; reflexivity|reflexivity]. }
  split; [repeat constructor; cbn; unfold no_nul; cbn; intuition discriminate|].
  split; [apply ex_admits; [left; reflexivity|apply ex_small; vm_compute; reflexivity]|].
  eexists. split; [reflexivity|].
  apply (C58_endless_refuted no_float no_float (selected ex_options) ex_defs (rev ex_items) _ RInsert 9 1 [] 2 [x00] [x00] (ex_tm (str "t")));
    first [reflexivity | discriminate | left; reflexivity | idtac].
  split; [reflexivity|]. intros [|[|i]] Hi; [reflexivity|reflexivity|cbn in Hi; lia].
Qed.
(** list, watch and the classic server *)
Definition ex_files : list bytes := ex_var (str "177").
Definition ex_classic : list bytes :=
  (wlenenc 2 :: map coldef_wire [ex_column; ex_column] ++ [eof_wire classic_caps 0 2]) ++ [text_row [Some (str "name"); Some (str "177")]; eof_wire classic_caps 0 2].
Definition ex_watch : socket := ex_server tool_caps (ex_files ++ ex_opening ++ map (event_message crc32 true) ex_log).
Example C58_example_others :
  fst (exec_list sha1 sha256 true (str "root") (str "pw") (Some (ex_server tool_caps ex_files))) = Ok [(str "name", 177)] /\
  fst (watch sha1 sha256 crc32 true ex_uuid 7 (CTcp (str "root") (str "pw")) (Some ex_watch)) = (Err EIO, [(str "name", 177)], reported true ex_log) /\
  length (reported true ex_log) = 6%nat /\
  fst (exec_list sha1 sha256 true (str "root") (str "pw") (Some (ex_server classic_caps ex_classic))) = Err EPacket /\
  admits (str "pw") (ex_server classic_caps ex_classic) (str "mysql_native_password") ex_nonce ex_classic [] /\
  heading classic_caps [ex_column; ex_column] (wlenenc 2 :: map coldef_wire [ex_column; ex_column] ++ [eof_wire classic_caps 0 2]) /\
  N.testbit classic_caps 24 = false /\ N.lor classic_caps (2 ^ 24) = tool_caps.
Proof.
  split; [vm_compute; reflexivity|]. split; [vm_compute; reflexivity|]. split; [vm_compute; reflexivity|]. split; [vm_compute; reflexivity|].
  split; [apply ex_admits; [right; reflexivity|apply ex_small; vm_compute; reflexivity]|]. split; [|split; reflexivity].
  exists [eof_wire classic_caps 0 2]. split; [|reflexivity]. unfold defs_end. cbn. eexists. split; [|reflexivity]. constructor; reflexivity.
Qed.
(** a refused login; the same bytes and fewer bytes in other portions *)
Definition ex_refusal : socket :=
  (RData (wle 3 (N.of_nat (length (ex_greeting tool_caps))) ++ x00 :: ex_greeting tool_caps) :: chunks [err_wire tool_caps 1045 (str "28000") (str "denied")], []).
Example C58_example_network : rejects ex_refusal /\
  fst (exec_list sha1 sha256 true (str "root") (str "pw") (Some ex_refusal)) = Err EPacket /\
  let s := ex_server tool_caps ex_files in
  same_bytes s (map (fun b => RData [b]) (delivered (fst s)), []) /\
  fewer_bytes (skipn 90 (delivered (fst s))) (map (fun b => RData [b]) (firstn 90 (delivered (fst s))), []) s /\
  fst (exec_list sha1 sha256 true (str "root") (str "pw") (Some (map (fun b => RData [b]) (firstn 90 (delivered (fst s))), []))) = Err EIO.
Proof.
  split; [|split; [vm_compute; reflexivity|]].
  - split; [exact I|]. exists (str "mysql_native_password"), ex_nonce, (ex_greeting tool_caps), 1045, (str "28000"), (str "denied"), [].
    split; [left; reflexivity|]. split.
    { apply gr; [|reflexivity]. unfold greeting_ok. split; [cbn; unfold no_nul; cbn; intuition discriminate|]. repeat split; try reflexivity; discriminate. }
    split; [reflexivity|]. eexists _, _. split; [apply single_wire; reflexivity|]. split; [econstructor; [apply (single_wire x01); reflexivity|constructor]|]. vm_compute. reflexivity.
  - intros s. split; [|split].
    + split; [vm_compute; reflexivity|]. split; [cbn; split; [discriminate|exact I]|exact I].
    + split; [vm_compute; reflexivity|]. split; [exact I|cbn; split; [discriminate|exact I]].
    + vm_compute. reflexivity.
Qed.
Example C57_example : exists c, handshake sha1 sha256 true (mk_opts (str "root") (str "pw") []) (conn_new (ex_server classic_caps [])) = (Ok tt, c) /\
  c_cap c = tool_caps /\ N.land classic_caps (client_caps []) = classic_caps /\ tool_caps <> classic_caps.
Proof. eexists. split; [vm_compute; reflexivity|]. split; [reflexivity|]. split; [reflexivity|discriminate]. Qed.
