(** * C53, C54: what a peer can do to a client *)
From Coq Require Import Strings.String.
From Coq Require Import List NArith ZArith Lia Arith Bool.
From Verif Require Import Model.Base Model.BytesParser Model.LenEnc Model.Conn Model.Flags Model.Packet Model.Auth Model.Cmd Model.Col Model.Row Model.Stmt
  Model.Extract Model.Session Model.Event Model.Stream Spec.Framing Spec.Decoders Spec.Catalogue Spec.Programs Spec.Hostile
  Proofs.BaseLemmas Proofs.ConnProofs Proofs.TotalProofs Proofs.PanicProofs Proofs.EventPanicProofs Proofs.ScheduleProofs Proofs.HostileProofs.
Import ListNotations.
Open Scope N_scope.

(** ** C53 *)
(** No peer can keep a program busy for ever: whatever bytes arrive, in whatever portions, every program returns,
    fails or panics *)
Theorem C53_returns : forall sha1 sha256 crc checks A (m : io A) c, program sha1 sha256 crc checks m -> fst (m c) <> Loop.
Proof. intros sha1 sha256 crc checks A m c P E. destruct (program_tame _ _ _ _ _ m P c) as [_ H]. rewrite E in H. exact H. Qed.
Print Assumptions C53_returns.

Lemma only_bad {A} (m : io A) (bad : bytes -> byte -> panic -> Prop) : tame (fun bs w => exists msg nr, arrives bs msg nr /\ bad msg nr w) m -> panics_only m bad.
Proof. intros T c. exact (proj2 (T c)). Qed.
Lemma exec_bad (bad : bytes -> byte -> panic -> Prop) : (forall nr, bad [] nr PIndex) -> exec_wraps (fun bs w => exists msg nr, arrives bs msg nr /\ bad msg nr w).
Proof. intros H bs nr A. exists [], nr. auto. Qed.
Lemma query_bad (bad : bytes -> byte -> panic -> Prop) : (forall nr, bad [] nr PIndex) -> (forall nr, bad [xfb] nr PIndex) -> query_wraps (fun bs w => exists msg nr, arrives bs msg nr /\ bad msg nr w).
Proof. intros H1 H2 bs msg nr A [-> | ->]; eauto. Qed.
Lemma sends S checks (pre s post : bytes) : sendable checks s -> (length pre + length post <= 100)%nat -> goes S checks (pre ++ s ++ post).
Proof. intros H L. apply goes_small. destruct H as [H|H]; [left; exact H|right]. rewrite !app_length. lia. Qed.
Lemma sends_end S checks (pre s : bytes) : sendable checks s -> (length pre <= 100)%nat -> goes S checks (pre ++ s).
Proof. intros H L. pose proof (sends S checks pre s [] H) as X. rewrite app_nil_r in X. apply X. cbn [length]. lia. Qed.

(** These calls return whatever the peer does *)
Theorem C53_safe : forall checks A (m : io A), safe_call checks m -> panics_only m none_bad.
Proof.
  intros checks A m H. apply only_bad. set (S := fun bs w => _). assert (U : up S) by apply up_bad.
  assert (F : forall msg, (length msg <= 200)%nat -> goes S checks msg) by (intros msg L; apply goes_small; right; lia).
  destruct H.
  - apply tame_recv.
  - apply tame_sends, F. cbn. lia.
  - apply tame_simple; [exact U|]. apply sends_end; [assumption|cbn; lia].
  - apply tame_simple; [exact U|]. apply sends_end; [assumption|cbn; lia].
  - apply tame_simple; [exact U|]. apply sends_end; [assumption|cbn; lia].
  - apply tame_simple; [exact U|]. apply F. cbn. lia.
  - apply tame_simple; [exact U|]. apply F. cbn. lia.
  - unfold conn_reset_connection. apply tame_bind; [exact U|apply tame_sends, F; cbn; lia|]. intros _. apply tame_com_response. exact U.
  - apply tame_simple; [exact U|]. apply F. cbn. lia.
  - apply tame_fields; [exact U|]. apply goes_small. destruct H as [H|H]; [left; exact H|right]. unfold write_field_list, write_bytes.
    rewrite !app_length in *. change (length (write_u8 (command_byte CmdFieldList))) with 1%nat. change (length (write_u8 0)) with 1%nat. lia.
  - apply tame_statistics; [exact U|]. apply F. cbn. lia.
  - apply tame_debug; [exact U|]. apply F. cbn. lia.
  - apply tame_ping; [exact U|]. apply F. cbn. lia.
  - apply tame_multi; [exact U|]. apply F. destruct b; cbn; lia.
  - apply tame_prepare; [exact U|]. apply sends_end; [assumption|cbn; lia].
  - apply tame_stmt_close.
  - apply tame_rs_close. exact U.
Qed.
Print Assumptions C53_safe.

(** Statements without a result set panic only when an empty message arrives *)
Theorem C53_exec : forall checks m, exec_call checks m -> panics_only m empty_bad.
Proof.
  intros checks m H. apply only_bad. assert (X := exec_bad empty_bad (fun nr => conj eq_refl eq_refl)). set (S := fun bs w => _) in *. assert (U : up S) by apply up_bad.
  assert (P : forall id ps, params_size checks id ps -> goes S checks (write_stmt_execute id ps)).
  { intros id ps [H'|H']; apply goes_small; [left; exact H'|right; lia]. }
  destruct H.
  - apply tame_query_exec; [exact U| |exact X]. apply sends_end; [assumption|cbn; lia].
  - apply tame_stmt_exec; auto.
  - apply tame_exec_close; auto.
  - apply tame_set_var; auto. unfold write_stmt_prepare, write_bytes, set_var_sql.
    destruct global; [rewrite (app_assoc (write_u8 _))|rewrite (app_assoc (write_u8 _))]; apply sends; auto; cbn; lia.
  - apply tame_set_user_var; auto. unfold write_stmt_prepare, write_bytes. rewrite (app_assoc (write_u8 _)). apply sends; auto; cbn; lia.
Qed.
Print Assumptions C53_exec.

(** Queries panic only when an empty message arrives, or NULL where the number of columns is due *)
Theorem C53_query : forall checks A (m : io A), query_call checks m -> panics_only m header_bad.
Proof.
  intros checks A m H. apply only_bad.
  assert (X := query_bad header_bad (fun nr => conj (or_introl eq_refl) eq_refl) (fun nr => conj (or_intror eq_refl) eq_refl)). set (S := fun bs w => _) in *.
  assert (U : up S) by apply up_bad.
  assert (P : forall id ps, params_size checks id ps -> goes S checks (write_stmt_execute id ps)).
  { intros id ps [H'|H']; apply goes_small; [left; exact H'|right; lia]. }
  assert (F : forall msg, (length msg <= 200)%nat -> goes S checks msg) by (intros msg L; apply goes_small; right; lia).
  destruct H as [sql Hs|ps params Hp| | |V from name global Hn R|V from name Hn R].
  - apply tame_query_qry; [exact U| |exact X]. apply sends_end; [assumption|cbn; lia].
  - apply tame_stmt_qry; auto.
  - apply tame_bind; [exact U|apply tame_sends, F; cbn; lia|]. intros _. apply tame_new_rs; auto.
  - apply tame_files; auto. apply F. cbn. lia.
  - apply tame_get_var; auto.
    + unfold write_query, write_bytes, get_var_sql. destruct global; rewrite (app_assoc (write_u8 _)); apply sends; auto; cbn; lia.
    + intros v bs w E. destruct (R v) as [[a Y]|[e Y]]; congruence.
    + intros v E. destruct (R v) as [[a Y]|[e Y]]; congruence.
  - apply tame_get_user_var; auto.
    + unfold write_query, write_bytes. rewrite (app_assoc (write_u8 _)). apply sends_end; auto; cbn; lia.
    + intros v bs w E. destruct (R v) as [[a Y]|[e Y]]; congruence.
    + intros v E. destruct (R v) as [[a Y]|[e Y]]; congruence.
Qed.
Print Assumptions C53_query.

(** Reading the rows of a text result set returns whatever the peer does *)
Theorem C53_text_rows : forall A (next : rs_io (option A)) rs B (m : io B),
  text_source next -> N.of_nat (length (rs_col_defs rs)) < 2 ^ 32 -> row_call next rs m -> panics_only m none_bad.
Proof.
  intros A next rs B m T L R. apply only_bad. set (S := fun bs w => _). assert (U : up S) by apply up_bad.
  assert (G : gentle S next few_cols) by (destruct T; [apply gentle_text|apply gentle_map; [exact U|apply gentle_text]]).
  eapply tame_row_call; [exact U|exact G| |exact R]. unfold few_cols. lia.
Qed.
Print Assumptions C53_text_rows.
(** Reading the rows of a binary result set panics only when a row ends inside a DOUBLE *)
Theorem C53_binary_rows : forall A (next : rs_io (option A)) rs B (m : io B),
  binary_source next -> row_call next rs m -> panics_only m (row_bad (rs_col_types rs)).
Proof.
  intros A next rs B m T R. apply only_bad. set (S := fun bs w => _). assert (U : up S) by apply up_bad.
  assert (G0 : gentle S (next_row binary_rows) (fun r => rs_col_types r = rs_col_types rs)).
  { apply gentle_binary. intros bs msg nr w Ar H. exists msg, nr. split; [exact Ar|exact H]. }
  assert (G : gentle S next (fun r => rs_col_types r = rs_col_types rs)) by (destruct T; [exact G0|apply gentle_map; [exact U|exact G0]]).
  eapply tame_row_call; [exact U|exact G|reflexivity|exact R].
Qed.
Print Assumptions C53_binary_rows.

(** Logging in panics only because of a greeting with a short seed, of a request to use another method, or (if
    overflow is checked) of a message numbered 254 *)
Theorem C53_login : forall sha1 sha256 checks opts,
  (forall x, length (sha1 x) = 20%nat) -> (forall x, length (sha256 x) = 32%nat) ->
  N.of_nat (length (o_username opts) + length (o_database opts)) < 2 ^ 23 ->
  panics_only (handshake sha1 sha256 checks opts) (login_bad checks).
Proof.
  intros sha1 sha256 checks opts H1 H2 L. apply only_bad. apply tame_login; [apply up_bad|intros bs msg nr w Ar H; eauto|].
  left. split; [|exact L]. split; intros x; [rewrite H1|rewrite H2]; lia.
Qed.
Print Assumptions C53_login.
(** Changing the user panics only because of further data before any request to use another method, or of a message
    numbered 254 *)
Theorem C53_change_user : forall sha1 sha256 checks user pw db attrs,
  (forall x, length (sha1 x) = 20%nat) -> (forall x, length (sha256 x) = 32%nat) ->
  (checks = false \/ forall cap, N.of_nat (length (write_change_user cap (new_change_user user [] db (str "mysql_native_password") attrs))) < 2 ^ 31) ->
  panics_only (conn_change_user sha1 sha256 checks user pw db attrs) (change_user_bad checks).
Proof.
  intros sha1 sha256 checks user pw db attrs H1 H2 L. apply only_bad. apply tame_change_user; [apply up_bad|intros bs msg nr w Ar H; eauto| |].
  - left. split; intros x; [rewrite H1|rewrite H2]; lia.
  - intros cap. apply goes_small. destruct L as [L|L]; [left; exact L|right]. specialize (L cap). lia.
Qed.
Print Assumptions C53_change_user.

(** Waiting for a binlog event panics only when one arrives that announces less than its header (and checksum) *)
Theorem C53_event : forall crc s, panics_only (next_event crc s) (event_bad (p_checksum (s_pv4 s))).
Proof. intros crc s. apply only_bad. apply tame_event; [apply up_bad|]. intros bs msg nr w Ar H. eauto. Qed.
Print Assumptions C53_event.
(** Requesting a binlog stream panics only because of the messages described by [stream_bad] *)
Theorem C53_stream : forall checks uuid id o, sendable checks uuid ->
  (checks = false \/ forall mode sid, N.of_nat (length (stream_request mode sid o)) < 2 ^ 31) ->
  panics_only (request_stream checks uuid id o) (stream_bad checks).
Proof.
  intros checks uuid id o H1 H2. apply only_bad. apply tame_stream; [apply up_bad| |left; auto]. intros bs msg nr w Ar H. eauto.
Qed.
Print Assumptions C53_stream.

(** *** Findings: the bad messages do bring the client down *)
Lemma sent_then {A} checks msg (k : unit -> io A) c bs : accepting (c_ws c) -> packet_count (blen msg) <= 255 -> delivered (c_rd c) = bs ->
  exists d, ibind (send_msg checks msg true) k c = k tt d /\ delivered (c_rd d) = bs /\ c_cap d = c_cap c.
Proof.
  intros Ac L D. destruct (send_msg_spec checks c msg true Ac) as (seqs & w & d & E & _ & _ & _ & _ & _ & _ & Sb); [reflexivity|right; exact L|].
  exists d. split; [apply ibind_ok; exact E|]. pose proof (send_keeps _ _ _ _ _ _ E) as K. split; [exact (eq_trans K D)|]. destruct Sb as (_ & Sb & _). exact Sb.
Qed.
(** an empty reply to any statement or query *)
Theorem C53_empty_reply_refuted : forall checks sql c seqs w rest,
  accepting (c_ws c) -> N.of_nat (length sql) < 2 ^ 31 -> message_wire seqs [] w -> delivered (c_rd c) = w ++ rest ->
  fst (query_exec checks sql c) = Panic PIndex /\ fst (query_qry checks sql c) = Panic PIndex.
Proof.
  intros checks sql c seqs w rest Ac L M D.
  assert (P : packet_count (blen (write_query sql)) <= 255).
  { destruct (small_fits true (write_query sql)) as [F|F]; [right|discriminate F|exact F]. unfold write_query, write_bytes. rewrite app_length.
    change (length (write_u8 (command_byte CmdQuery))) with 1%nat. lia. }
  split.
  - unfold query_exec. destruct (sent_then checks (write_query sql) (fun _ c => query_exec_loop (S (sched_len (c_rd c))) c) c (w ++ rest) Ac P D) as (d & E & Dd & _).
    rewrite E. destruct (recv_msg_spec seqs [] w d rest M Dd) as (d' & E' & _). cbn [query_exec_loop]. rewrite (ibind_ok _ _ _ _ _ E'). reflexivity.
  - unfold query_qry. destruct (sent_then checks (write_query sql) (fun _ => new_result_set None) c (w ++ rest) Ac P D) as (d & E & Dd & _).
    rewrite E. destruct (recv_msg_spec seqs [] w d rest M Dd) as (d' & E' & _). unfold new_result_set. rewrite (ibind_ok _ _ _ _ _ E'). reflexivity.
Qed.
Print Assumptions C53_empty_reply_refuted.
(** NULL for the number of columns of a query *)
Theorem C53_null_count_refuted : forall checks sql c seqs w rest,
  accepting (c_ws c) -> N.of_nat (length sql) < 2 ^ 31 -> message_wire seqs [xfb] w -> delivered (c_rd c) = w ++ rest ->
  fst (query_qry checks sql c) = Panic PIndex.
Proof.
  intros checks sql c seqs w rest Ac L M D.
  assert (P : packet_count (blen (write_query sql)) <= 255).
  { destruct (small_fits true (write_query sql)) as [F|F]; [right|discriminate F|exact F]. unfold write_query, write_bytes. rewrite app_length.
    change (length (write_u8 (command_byte CmdQuery))) with 1%nat. lia. }
  unfold query_qry. destruct (sent_then checks (write_query sql) (fun _ => new_result_set None) c (w ++ rest) Ac P D) as (d & E & Dd & _).
  rewrite E. destruct (recv_msg_spec seqs [xfb] w d rest M Dd) as (d' & E' & _). unfold new_result_set. rewrite (ibind_ok _ _ _ _ _ E'). reflexivity.
Qed.
Print Assumptions C53_null_count_refuted.
(** a greeting with a short seed *)
Theorem C53_greeting_refuted : forall sha1 sha256 checks opts c seqs msg w rest,
  short_auth_data msg -> message_wire seqs msg w -> delivered (c_rd c) = w ++ rest -> fst (handshake sha1 sha256 checks opts c) = Panic PArith.
Proof.
  intros sha1 sha256 checks opts c seqs msg w rest H M D. destruct (recv_msg_spec seqs msg w c rest M D) as (d & E & _).
  unfold handshake. rewrite (ibind_ok _ _ _ _ _ E). destruct (greeting_exact msg) as [X _]. rewrite (proj2 (X PArith)) by auto. reflexivity.
Qed.
Print Assumptions C53_greeting_refuted.
(** further data before any request to use another method *)
Theorem C53_more_data_refuted : forall sha1 sha256 checks user pw db attrs c seqs data w rest,
  accepting (c_ws c) -> (forall cap, N.of_nat (length (write_change_user cap (new_change_user user [] db (str "mysql_native_password") attrs))) < 2 ^ 31) ->
  message_wire seqs (x01 :: data) w -> delivered (c_rd c) = w ++ rest ->
  fst (conn_change_user sha1 sha256 checks user pw db attrs c) = Panic PUnwrap.
Proof.
  intros sha1 sha256 checks user pw db attrs c seqs data w rest Ac L M D. unfold conn_change_user. set (req := write_change_user (c_cap c) _).
  assert (P : packet_count (blen req) <= 255).
  { destruct (small_fits true req) as [F|F]; [right|discriminate F|exact F]. specialize (L (c_cap c)). fold req in L. lia. }
  destruct (sent_then checks req (fun _ c => change_user_loop sha1 sha256 checks pw (S (sched_len (c_rd c))) None c) c (w ++ rest) Ac P D) as (d & E & Dd & _).
  rewrite E. destruct (recv_msg_spec seqs (x01 :: data) w d rest M Dd) as (d' & E' & _). cbn [change_user_loop]. rewrite (ibind_ok _ _ _ _ _ E'). reflexivity.
Qed.
Print Assumptions C53_more_data_refuted.
(** an event that announces less than its header *)
Theorem C53_event_refuted : forall crc s c seqs ev h rest' w rest,
  s_completed s = false -> s_validate s = false -> read_event_header ev = (Ok h, rest') -> announced_length ev < 19 ->
  message_wire seqs (x00 :: ev) w -> delivered (c_rd c) = w ++ rest -> fst (next_event crc s c) = Panic PArith.
Proof.
  intros crc s c seqs ev h rest' w rest Hc Hv Eh L M D. unfold next_event. rewrite Hc. cbn [next_event_loop].
  destruct (recv_msg_spec seqs (x00 :: ev) w c rest M D) as (d & E & _).
  assert (R : recv_and_parse_event crc s c = (Panic PArith, d)).
  { unfold recv_and_parse_event. rewrite (ibind_ok _ _ _ _ _ E). change (b2n x00) with 0. change (0 =? 254) with false. rewrite andb_false_r. change (negb (0 =? 0)) with false.
    assert (X : fst (parse_event crc (s_pv4 s) (s_validate s) ev) = Panic PArith).
    { unfold parse_event. rewrite Hv, andb_false_r. unfold pbind at 1, pret at 1. unfold pbind at 1. rewrite Eh. unfold pbind at 1, plift at 1, data_len, csub.
      destruct (header_cases ev) as [(h2 & r2 & E2 & E3 & _)|[e E2]]; [|rewrite Eh in E2; discriminate E2].
      rewrite Eh in E2. injection E2 as <- <-. destruct (N.ltb_spec (h_event_len h) 19); [reflexivity|lia]. }
    unfold parse. erewrite ibind_panic; [reflexivity|]. unfold ilift. rewrite X. reflexivity. }
  rewrite (ibind_panic _ _ _ _ _ R). reflexivity.
Qed.
Print Assumptions C53_event_refuted.

(** ** C54 *)
(** A program that does not report a lost connection has read a whole number of messages: whatever it returns, even
    after an error or a panic, the connection is not left in the middle of one *)
Theorem C54_whole : forall sha1 sha256 crc checks A (m : io A) c,
  program sha1 sha256 crc checks m -> fst (m c) <> Err EIO -> whole_messages c (snd (m c)).
Proof. intros sha1 sha256 crc checks A m c P. exact (proj1 (program_tame _ _ _ _ _ m P c)). Qed.
Print Assumptions C54_whole.

(** *** Examples *)
(** a statement answered by an empty message; a ping answered by an OK and half a message; rows; a login that is
    asked to use another method *)
Example C53_example :
  let c := mk_conn [RPending; RData [x00; x00]; RData [x00; x01; x07]] [] [] 0 0 0 in
  exec_call true (query_exec true (str "DO 1")) /\ fst (query_exec true (str "DO 1") c) = Panic PIndex /\
  arrives (arriving c) [] x01 /\ safe_call true (conn_ping true) /\ fst (conn_ping true c) = Err (EIncomplete (Some 1)).
Proof.
  cbv zeta. split; [constructor; right; reflexivity|]. split; [vm_compute; reflexivity|]. split.
  - exists [], [], [], [x00; x00; x00; x01], [x07]. split; [constructor|]. split; [|reflexivity].
    apply (mw_last x01 [] [x00; x00; x00; x01]); [apply N.ltb_lt; vm_compute; reflexivity|]. exists [x00; x00; x00]. split; [split; reflexivity|reflexivity].
  - split; [apply sc_ping|vm_compute; reflexivity].
Qed.
Example C54_example :
  let ok := [x07; x00; x00; x01; x00; x00; x00; x02; x00; x00; x00] in
  let c := mk_conn [RData ok; RData [x09; x00]] [] [] 0x200 0 0 in
  conn_ping true c = (Ok tt, mk_conn [RData [x09; x00]] [] [x01; x00; x00; x00; x0e] 0x200 0 2) /\ fst (conn_ping true c) <> Err EIO.
Proof. cbv zeta. split; [vm_compute; reflexivity|vm_compute; discriminate]. Qed.
