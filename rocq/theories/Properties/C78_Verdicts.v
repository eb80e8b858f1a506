(** * C78: what a call reports is exactly what the server's bytes say.  The output is accepted. *)
From Coq Require Import Strings.String.
From Coq Require Import List NArith ZArith Lia Arith Bool.
From Verif Require Import Model.Base Model.BytesParser Model.Conn Model.Packet Model.Auth Model.Cmd Model.Col Model.Row Model.Stmt Model.Event Model.EventBody Model.Extract Model.Session Model.Stream
  Spec.Nums Spec.LenEncSpec Spec.Wire Spec.Packets Spec.Framing Spec.Programs Spec.Hostile Spec.Commands Spec.ResultSets Spec.Accepts Spec.AcceptsEvents Spec.Verdicts
  Proofs.BaseLemmas Proofs.ConnProofs Proofs.HostileProofs Proofs.AcceptsProofs Proofs.VerdictsProofs.
Import ListNotations.
Open Scope N_scope.

Lemma fits_msg checks s msg : sendable checks s -> (length msg <= length s + 8)%nat -> checks = false \/ packet_count (blen msg) <= 255.
Proof. intros [H|H] L; [left; exact H|right]. destruct (small_fits true msg) as [F|F]; [right; lia|discriminate F|exact F]. Qed.
Lemma fits_params checks id ps : params_size checks id ps -> checks = false \/ packet_count (blen (write_stmt_execute id ps)) <= 255.
Proof. intros [H|H]; [left; exact H|right]. destruct (small_fits true (write_stmt_execute id ps)) as [F|F]; [right; lia|discriminate F|exact F]. Qed.
Ltac short_head := rewrite ?app_length; repeat match goal with |- context [length (write_u8 ?x)] => change (length (write_u8 x)) with 1%nat end; unfold write_bytes; rewrite ?app_length; lia.

(** the commands answered by OK or ERR *)
Theorem C78_simple : forall checks call rq c, simple_command checks call rq -> accepting (c_ws c) -> reports call c (plain_reply (c_cap c)).
Proof.
  intros checks call rq c Sc Ac.
  assert (Go : forall msg, checks = false \/ packet_count (blen msg) <= 255 -> reports (_ <~ send_msg checks msg true ;; recv_com_response) c (plain_reply (c_cap c))).
  { intros msg F. apply rp_sent; [exact Ac|exact F|]. intros d Cd. rewrite <- Cd. apply com_reports. }
  destruct Sc as [db S|db S|db S|fl S|id S| |id S]; apply Go; try (right; vm_compute; discriminate).
  all: apply (fits_msg checks db); [exact S|]; unfold write_init_db, write_create_db, write_drop_db; short_head.
Qed.
Print Assumptions C78_simple.
(** the other commands without a result set: debug information, multiple statements, a ping, statistics *)
Theorem C78_other : forall checks c, accepting (c_ws c) ->
  reports (conn_debug checks) c (eof_reply (c_cap c)) /\ (forall b, reports (conn_set_multi_stmts checks b) c (eof_reply (c_cap c))) /\
  reports (conn_ping checks) c (ping_reply (c_cap c)) /\ reports (conn_statistics checks) c text_reply.
Proof.
  intros checks c Ac. split; [apply debug_reports, Ac|]. split; [intros b; apply set_option_reports, Ac|]. split; [apply ping_reports, Ac|apply statistics_reports, Ac].
Qed.
Print Assumptions C78_other.
(** statements executed for their effect *)
Theorem C78_exec : forall checks c, accepting (c_ws c) ->
  (forall sql, sendable checks sql -> reports (query_exec checks sql) c (exec_reply (c_cap c))) /\
  (forall ps params, params_size checks (ps_stmt_id ps) params -> reports (stmt_exec checks ps params) c (exec_reply (c_cap c))).
Proof.
  intros checks c Ac. split.
  - intros sql S. apply query_exec_reports; [exact Ac|]. apply (fits_msg checks sql); [exact S|]. unfold write_query. short_head.
  - intros ps params S. apply stmt_exec_reports; [exact Ac|]. apply fits_params, S.
Qed.
Print Assumptions C78_exec.
(** queries *)
Theorem C78_query : forall checks c, accepting (c_ws c) ->
  (forall sql, sendable checks sql -> reports (query_qry checks sql) c (query_reply (c_cap c) None)) /\
  (forall ps params, params_size checks (ps_stmt_id ps) params -> reports (stmt_qry checks ps params) c (query_reply (c_cap c) (Some (ps_stmt_id ps)))) /\
  reports (conn_process_info checks) c (query_reply (c_cap c) None).
Proof.
  intros checks c Ac. split; [|split].
  - intros sql S. apply query_qry_reports; [exact Ac|]. apply (fits_msg checks sql); [exact S|]. unfold write_query. short_head.
  - intros ps params S. apply stmt_qry_reports; [exact Ac|]. apply fits_params, S.
  - apply process_info_reports, Ac.
Qed.
Print Assumptions C78_query.
(** preparing a statement, the fields of a table *)
Theorem C78_prepare : forall checks sql c, accepting (c_ws c) -> sendable checks sql -> reports (stmt_prepare checks sql) c (prepare_reply (c_cap c)).
Proof.
  intros checks sql c Ac S. apply prepare_reports; [exact Ac|]. apply (fits_msg checks sql); [exact S|]. unfold write_stmt_prepare. short_head.
Qed.
Print Assumptions C78_prepare.
Theorem C78_fields : forall checks table wildcard c, accepting (c_ws c) -> sendable checks (table ++ wildcard) ->
  reports (conn_field_list checks table wildcard) c (fields_reply (c_cap c)).
Proof.
  intros checks table wildcard c Ac S. apply field_list_reports; [exact Ac|]. apply (fits_msg checks (table ++ wildcard)); [exact S|]. unfold write_field_list. short_head.
Qed.
Print Assumptions C78_fields.
(** the rows of a result set that is not yet at its end: one, all, their number, the first *)
Definition delivers_rows {Q} (read_row : result_set -> parser (list Q)) (rs : result_set) (c : conn) (layout : list Q -> bytes -> Prop) : Prop :=
  delivers (on_rs (next_row read_row) rs) c (next_row_reply (c_cap c) layout) /\
  delivers (on_rs (rs_all (next_row read_row)) rs) c (rows_reply (c_cap c) layout) /\
  delivers (on_rs (rs_count (next_row read_row)) rs) c (fun n ms => exists rows, n = N.of_nat (length rows) /\ rows_reply (c_cap c) layout rows ms) /\
  delivers (on_rs (rs_first_or_none (next_row read_row)) rs) c (fun o ms => exists rows, o = hd_error rows /\ rows_reply (c_cap c) layout rows ms).
Theorem C78_rows : forall rs c, rs_completed rs = false ->
  delivers_rows text_rows rs c (text_row_layout (N.of_nat (length (rs_col_defs rs)))) /\
  delivers_rows binary_rows rs c (binary_row_layout (rs_col_types rs)).
Proof.
  intros rs c H. split.
  - pose proof (text_takes rs) as T. split; [apply next_row_delivers; assumption|]. split; [apply all_delivers; assumption|]. split; [apply count_delivers; assumption|apply first_delivers; assumption].
  - pose proof (binary_takes rs) as T. split; [apply next_row_delivers; assumption|]. split; [apply all_delivers; assumption|]. split; [apply count_delivers; assumption|apply first_delivers; assumption].
Qed.
Print Assumptions C78_rows.
(** the events of a stream *)
Theorem C78_events : forall crc s c, s_completed s = false -> delivers (next_event crc s) c (event_reply crc s).
Proof. exact event_delivers. Qed.
Print Assumptions C78_events.
(** so no stream says two things *)
Theorem C78_unambiguous : forall A (call : io A) c saying, reports call c saying ->
  forall v1 v2 ms1 ms2 w1 w2 r1 r2, messages_wire ms1 w1 -> messages_wire ms2 w2 -> arriving c = w1 ++ r1 -> arriving c = w2 ++ r2 ->
    saying v1 ms1 -> saying v2 ms2 -> v1 = v2 /\ r1 = r2.
Proof.
  intros A call c saying R v1 v2 ms1 ms2 w1 w2 r1 r2 W1 W2 E1 E2 S1 S2.
  destruct (proj2 (R v1 r1)) as [T1 A1]; [eauto 6|]. destruct (proj2 (R v2 r2)) as [T2 A2]; [eauto 6|]. split; [|congruence].
  destruct v1, v2; cbn [told] in *; congruence.
Qed.
Print Assumptions C78_unambiguous.

(** *** Examples: a refused command and what follows it; a statement that passes two messages over; a query with one row; an event *)
Definition framed (nr : byte) (p : bytes) : bytes := n2b (N.of_nat (length p)) :: x00 :: x00 :: nr :: p.
Lemma framed_wire nr p : (length p <= 200)%nat -> messages_wire [p] (framed nr p).
Proof.
  intros H. assert (E : framed nr p = framed nr p ++ []) by (rewrite app_nil_r; reflexivity). rewrite E. apply (msw_cons p _ [] [] [nr]); [|constructor].
  apply (mw_last nr p); [unfold full; lia|]. exists [n2b (N.of_nat (length p)); x00; x00]. split; [|reflexivity]. split; [reflexivity|].
  cbn [le_val]. change (Byte.to_N x00) with 0. change (Byte.to_N (n2b (N.of_nat (length p)))) with (b2n (n2b (N.of_nat (length p)))). rewrite b2n_n2b by lia. lia.
Qed.
Definition no_database : bytes := [xff; x19; x04; x23; x34; x32; x30; x30; x30; x4e; x6f].
Example C78_simple_example :
  let c := mk_conn [RData (framed x01 no_database); RPending; RData [x07]] [] [] 0x200 0 0 in
  refusal (A := unit) 0x200 (Refused 1049 x23 (str "42000") (str "No")) [no_database] /\
  told (fst (conn_init_db true (str "x") c)) (Refused 1049 x23 (str "42000") (str "No")) /\ arriving (snd (conn_init_db true (str "x") c)) = [x07].
Proof.
  cbv zeta. set (c := mk_conn _ _ _ _ _ _).
  assert (R : refusal (A := unit) 0x200 (Refused 1049 x23 (str "42000") (str "No")) [no_database]).
  { exists (mk_err 255 1049 35 (str "42000") (str "No")), no_database. split; [reflexivity|]. split; [eexists; reflexivity|]. split; [|repeat split; reflexivity].
    apply (Proofs.AcceptsPackets.accepts_err 0x200 true). vm_compute. reflexivity. }
  split; [exact R|]. apply (C78_simple true (conn_init_db true (str "x")) (RqInitDb (str "x")) c); [apply sc_init_db; right; reflexivity|exact I|].
  exists [no_database], (framed x01 no_database). split; [apply framed_wire; vm_compute; lia|]. split; [reflexivity|]. right. exact R.
Qed.
Example C78_exec_example :
  let c := mk_conn [RData (framed x01 [x01] ++ framed x02 [xfe; x00] ++ framed x03 [x00; x05; x00; x02; x00; x00; x00])] [] [] 0x200 0 0 in
  exists msgs w, messages_wire msgs w /\ arriving c = w ++ [] /\ length msgs = 3%nat /\ exec_reply 0x200 (Done tt) msgs.
Proof.
  cbv zeta. set (c := mk_conn _ _ _ _ _ _). destruct (C78_exec true c I) as [X _]. specialize (X (str "DELETE FROM t") (or_intror eq_refl)).
  destruct (proj1 (X (Done tt) [])) as (ms & w & W & A & R); [split; vm_compute; reflexivity|]. exists [[x01]; [xfe; x00]; [x00; x05; x00; x02; x00; x00; x00]], (arriving c).
  assert (Wm : messages_wire [[x01]; [xfe; x00]; [x00; x05; x00; x02; x00; x00; x00]] (arriving c)).
  { apply (wire_join [[x01]] _ (framed x01 [x01])); [apply framed_wire; cbn; lia|]. apply (wire_join [[xfe; x00]] _ (framed x02 [xfe; x00])); [apply framed_wire; cbn; lia|].
    apply framed_wire. cbn. lia. }
  split; [exact Wm|]. split; [rewrite app_nil_r; reflexivity|]. split; [reflexivity|]. exists [[x01]; [xfe; x00]], [x00; x05; x00; x02; x00; x00; x00]. split; [reflexivity|].
  split; [repeat constructor; eexists; eexists; (split; [reflexivity|]); split; discriminate|]. left. split; [reflexivity|]. eexists. split; [reflexivity|]. split; [eexists; reflexivity|].
  exists (mk_ok 0 5 0 2 0 [] []). apply (Proofs.AcceptsPackets.accepts_ok 0x200). vm_compute. reflexivity.
Qed.
(** one column named "a" of type INT, one row *)
Definition one_column : bytes := coldef_wire (mk_cd (str "def") [] [] [] (str "a") [] 63 11 TLong 0 0 []).
Example C78_query_example :
  let c := mk_conn [RData (framed x01 [x01] ++ framed x02 one_column ++ framed x03 [xfe; x00; x00; x02; x00]);
                    RData (framed x04 [x02; x34; x32] ++ framed x05 [xfe; x00; x00; x02; x00])] [] [] 0x200 0 0 in
  let rs := mk_res [mk_cd (str "def") [] [] [] (str "a") [] 63 11 TLong 0 0 []] false [TLong] None in
  exists d, query_qry true (str "SELECT a") c = (Ok rs, d) /\ (exists msgs w, messages_wire msgs w /\ arriving c = w ++ arriving d /\ query_reply 0x200 None (Done rs) msgs) /\
  fst (on_rs (rs_all (next_row text_rows)) rs d) = Ok [[Some (str "42")]] /\
  exists msgs w, messages_wire msgs w /\ arriving d = w ++ [] /\ rows_reply 0x200 (text_row_layout 1) [[Some (str "42")]] msgs.
Proof.
  cbv zeta. set (c := mk_conn _ _ _ _ _ _). set (rs := mk_res _ _ _ _). destruct (query_qry true (str "SELECT a") c) as [r d] eqn:E.
  assert (Er : r = Ok rs) by (vm_compute in E; injection E as <- _; reflexivity). subst r. exists d. split; [reflexivity|].
  assert (Cd : c_cap d = 0x200) by (vm_compute in E; injection E as <-; reflexivity). split; [|split].
  - destruct (C78_query true c I) as [X _]. specialize (X (str "SELECT a") (or_intror eq_refl) (Done rs) (arriving d)). rewrite E in X. apply X. split; reflexivity.
  - vm_compute in E. injection E as <-. vm_compute. reflexivity.
  - destruct (C78_rows rs d eq_refl) as [(_ & X & _) _]. specialize (X [[Some (str "42")]] []). rewrite Cd in X. apply X. vm_compute in E. injection E as <-. split; vm_compute; reflexivity.
Qed.
(** a commit after the preparation of a distributed transaction, a kind of event that is passed over *)
Example C78_events_example :
  let c := mk_conn [RData (framed x01 (x00 :: [x00; x00; x00; x00; x26; x01; x00; x00; x00; x13; x00; x00; x00; x00; x00; x00; x00; x00; x00])); 
                    RData (framed x02 (x00 :: [x00; x00; x00; x00; x10; x01; x00; x00; x00; x1b; x00; x00; x00; x00; x00; x00; x00; x00; x00; x05; x00; x00; x00; x00; x00; x00; x00]))] [] [] 0x200 0 0 in
  let s := mk_stream (mk_parser [] false) false false false in
  exists o d, next_event (fun _ => 0) s c = (Ok o, d) /\ o <> None /\
  exists msgs w, messages_wire msgs w /\ arriving c = w ++ [] /\ event_reply (fun _ => 0) s o msgs.
Proof.
  cbv zeta. set (c := mk_conn _ _ _ _ _ _). set (s := mk_stream _ _ _ _). destruct (next_event (fun _ => 0) s c) as [r d] eqn:E.
  assert (K : exists o, r = Ok o /\ o <> None /\ arriving d = []) by (vm_compute in E; injection E as <- <-; eexists; split; [reflexivity|split; [discriminate|reflexivity]]).
  destruct K as (o & -> & No & Ad). exists o, d. split; [reflexivity|]. split; [exact No|]. pose proof (C78_events (fun _ => 0) s c eq_refl o []) as X. rewrite E in X. apply X. auto.
Qed.
