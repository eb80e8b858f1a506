(** * Client programs in both builds *)
From Coq Require Import Lia.
From Verif Require Import Model.Base Model.BytesParser Model.Cmd Model.Col Model.Row Model.Packet Model.Conn Model.Auth Model.Stmt
  Model.Extract Model.Session Model.Event Model.EventBody Model.Rows Model.Stream Model.Transform Model.MyBinlog Model.Tools
  Model.Release Spec.Decoders Spec.Catalogue Spec.Programs Spec.ReleaseSpec
  Proofs.BaseLemmas Proofs.BytesParserProofs Proofs.PacketProofs Proofs.CodecProofs Proofs.BitmapProofs Proofs.LocalProofs Proofs.TotalProofs Proofs.PanicProofs
  Proofs.EventPanicProofs Proofs.ReleaseProofs Proofs.ReleaseTotal.
Open Scope N_scope.

Lemma stopped_dec {A} (r : res A) : stopped_by_checks r \/ ~ stopped_by_checks r.
Proof. destruct r as [a|e|p|]; try (right; intros [H|H]; discriminate). destruct p; unfold stopped_by_checks; auto; right; intros [H|H]; discriminate. Qed.
Lemma agree_same {A} (a b : res A) : agree a b -> same_result a b.
Proof. intros [H|H] N; [contradiction | exact H]. Qed.
Lemma pagree_same {A} (p q : parser A) bs : pagree p q -> same_without_checks (p bs) (q bs).
Proof. intros H N. destruct (H bs) as [S|E]; [contradiction | exact E]. Qed.
Lemma iagree_same {A} (m n : io A) c : iagree m n -> same_without_checks (m c) (n c).
Proof. intros H N. destruct (H c) as [S|E]; [contradiction | exact E]. Qed.
Lemma same_agree {A} (a b : res A) : same_result a b -> agree a b.
Proof. intros H. destruct (stopped_dec a) as [S|S]; [left; exact S | right; exact (H S)]. Qed.

Lemma attempt_ok {A} (m n : io A) : iagree m n -> iagree (attempt m) (attempt n).
Proof.
  intros H c. unfold attempt. destruct (H c) as [S|E].
  - left. destruct (m c) as [[a|e|p|] c']; destruct S as [S|S]; cbn in S; try discriminate; injection S as ->; [left|right]; reflexivity.
  - right. rewrite E. reflexivity.
Qed.

(** ** result sets *)
Definition ragree {A} (m n : rs_io A) : Prop := forall rs c, stopped_by_checks (fst (fst (m rs c))) \/ n rs c = m rs c.
Lemma ragree_refl {A} (m : rs_io A) : ragree m m.
Proof. intros rs c. right. reflexivity. Qed.
Lemma next_row_ok {Q} (read read' : result_set -> parser (list Q)) : (forall rs, pagree (read rs) (read' rs)) ->
  ragree (next_row read) (next_row read').
Proof.
  intros H rs c. unfold next_row. destruct (rs_completed rs); [right; reflexivity|].
  destruct (recv_msg c) as [[msg|e|p|] c']; try (right; reflexivity).
  assert (N : stopped_by_checks (fst (next_row_msg read (c_cap c) rs msg)) \/
              next_row_msg read' (c_cap c) rs msg = next_row_msg read (c_cap c) rs msg).
  { unfold next_row_msg. destruct msg as [|b msg]; [right; reflexivity|]. destruct (_ && _)%bool; [right; reflexivity|].
    destruct (pagree_fst _ _ (b :: msg) (H rs)) as [S|E].
    - left. cbn [fst]. destruct (read rs (b :: msg)) as [[a|e|p|] rest]; destruct S as [S|S]; cbn in S; try discriminate;
        injection S as ->; [left|right]; reflexivity.
    - right. rewrite E. reflexivity. }
  destruct N as [S|E].
  - left. destruct (next_row_msg read _ _ _) as [r rs']. exact S.
  - right. rewrite E. reflexivity.
Qed.
Lemma map_next_row_ok {Q O} (read read' : result_set -> parser (list Q)) (f : list Q -> O) :
  (forall rs, pagree (read rs) (read' rs)) -> ragree (map_next_row read f) (map_next_row read' f).
Proof.
  intros H rs c. unfold map_next_row. destruct (next_row_ok read read' H rs c) as [S|E].
  - left. destruct (next_row read rs c) as [[[o|e|p|] rs'] c']; destruct S as [S|S]; cbn in S; try discriminate;
      injection S as ->; [left|right]; reflexivity.
  - right. rewrite E. reflexivity.
Qed.
Lemma row_builds_ok {A} (next next' : rs_io (option A)) : row_builds next next' -> ragree next next'.
Proof.
  assert (B : forall rs, pagree (binary_rows rs) (binary_rows_rel rs)) by (intros rs; apply read_binary_row_rel_ok).
  intros H; destruct H; auto using ragree_refl, next_row_ok, map_next_row_ok.
Qed.
Lemma while_rows_ok {A B} (next next' : rs_io (option A)) (step : B -> A -> B) : ragree next next' ->
  forall fuel acc, ragree (while_rows fuel next step acc) (while_rows fuel next' step acc).
Proof.
  intros H. induction fuel as [|fuel IH]; intros acc rs c; cbn [while_rows]; [right; reflexivity|].
  destruct (H rs c) as [S| ->].
  - left. destruct (next rs c) as [[[o|e|p|] rs'] c']; destruct S as [S|S]; cbn in S; try discriminate;
      injection S as ->; [left|right]; reflexivity.
  - destruct (next rs c) as [[[[row|]|e|p|] rs'] c']; try (right; reflexivity). apply IH.
Qed.
Lemma rs_all_ok {A} (next next' : rs_io (option A)) : ragree next next' -> ragree (rs_all next) (rs_all next').
Proof. intros H rs c. apply while_rows_ok, H. Qed.
Lemma rs_first_or_none_ok {A} (next next' : rs_io (option A)) : ragree next next' ->
  ragree (rs_first_or_none next) (rs_first_or_none next').
Proof. intros H rs c. apply while_rows_ok, H. Qed.
Lemma rs_first_ok {A} (next next' : rs_io (option A)) : ragree next next' -> ragree (rs_first next) (rs_first next').
Proof.
  intros H rs c. unfold rs_first. destruct (rs_first_or_none_ok _ _ H rs c) as [S| ->]; [|right; reflexivity].
  left. destruct (rs_first_or_none next rs c) as [[[o|e|p|] rs'] c']; destruct S as [S|S]; cbn in S; try discriminate;
    injection S as ->; [left|right]; reflexivity.
Qed.
Lemma rs_count_ok {A} (next next' : rs_io (option A)) : ragree next next' -> ragree (rs_count next) (rs_count next').
Proof. intros H rs c. apply while_rows_ok, H. Qed.
Lemma rs_close_ok : ragree (rs_close true) (rs_close false).
Proof.
  intros rs c. unfold rs_close. destruct (rs_stmt_id rs); [|right; reflexivity].
  destruct (send_msg_ok (write_stmt_close n) true c) as [S| ->]; [|right; reflexivity].
  left. destruct (send_msg true _ _ c) as [r c']. exact S.
Qed.
Lemma call_rs_ok {A} (m n : rs_io A) rs : ragree m n -> iagree (call_rs m rs) (call_rs n rs).
Proof.
  intros H c. unfold call_rs. destruct (H rs c) as [S| ->]; [|right; reflexivity].
  left. destruct (m rs c) as [[[a|e|p|] rs'] c']; destruct S as [S|S]; cbn in S; try discriminate;
    injection S as ->; [left|right]; reflexivity.
Qed.
(** nothing there is stopped *)
Lemma row_builds_on {A} (next next' : rs_io (option A)) : row_builds next next' -> rgoes_on next'.
Proof.
  assert (B : forall rs, pgoes_on (binary_rows_rel rs)) by (intros rs; apply pon_binary_row).
  intros H; destruct H; auto using ron_next, ron_map_next, ron_text.
Qed.
Lemma ron_all {A} (next : rs_io (option A)) : rgoes_on next -> rgoes_on (rs_all next).
Proof. intros H rs c. apply ron_while, H. Qed.
Lemma ron_first_or_none {A} (next : rs_io (option A)) : rgoes_on next -> rgoes_on (rs_first_or_none next).
Proof. intros H rs c. apply ron_while, H. Qed.
Lemma ron_first {A} (next : rs_io (option A)) : rgoes_on next -> rgoes_on (rs_first next).
Proof.
  intros H rs c. unfold rs_first. pose proof (ron_first_or_none _ H rs c) as K.
  destruct (rs_first_or_none next rs c) as [[r rs'] c']. cbn in *. apply on_bind; [exact K|]. intros [row|]; auto with on.
Qed.
Lemma ron_count {A} (next : rs_io (option A)) : rgoes_on next -> rgoes_on (rs_count next).
Proof. intros H rs c. apply ron_while, H. Qed.
Lemma ron_close : rgoes_on (rs_close false).
Proof.
  intros rs c. unfold rs_close. destruct (rs_stmt_id rs); [|apply on_ok].
  pose proof (ion_send (write_stmt_close n) true c) as H. destruct (send_msg false _ _ c) as [r c']. exact H.
Qed.
Lemma ion_call_rs {A} (m : rs_io A) rs : rgoes_on m -> igoes_on (call_rs m rs).
Proof.
  intros H c. unfold call_rs. specialize (H rs c). destruct (m rs c) as [[r rs'] c']. cbn in *. apply on_map, H.
Qed.
Lemma ion_attempt {A} (m : io A) : igoes_on m -> igoes_on (attempt m).
Proof.
  intros H c. unfold attempt. specialize (H c). destruct (m c) as [[a|e|p|] c']; fin. destruct e; fin.
Qed.

(** ** programs *)
Section Programs.
  Variables sha1 sha256 : bytes -> bytes.
  Variable crc : bytes -> N.
  Lemma builds_ok {A} (m n : io A) : builds sha1 sha256 crc m n -> iagree m n.
  Proof.
    induction 1; auto using iagree_refl, iagree_bind, attempt_ok, send_msg_ok, handshake_rel_ok, conn_quit_ok, conn_init_db_ok,
      conn_create_db_ok, conn_drop_db_ok, conn_refresh_ok, conn_process_kill_ok, conn_reset_connection_ok, conn_register_slave_ok,
      conn_field_list_ok, conn_statistics_ok, conn_debug_ok, conn_ping_ok, conn_set_multi_stmts_ok, conn_process_info_ok,
      conn_change_user_ok, conn_binlog_files_ok, conn_get_var_ok, conn_set_var_ok, conn_get_user_var_ok, conn_set_user_var_ok,
      query_exec_ok, query_qry_ok, stmt_prepare_ok, stmt_exec_ok, stmt_exec_close_ok, stmt_qry_ok, stmt_close_ok,
      request_stream_rel_ok, next_event_rel_ok, call_rs_ok, row_builds_ok, rs_all_ok, rs_first_ok, rs_first_or_none_ok, rs_count_ok,
      rs_close_ok.
    apply iagree_lift, same_agree. assumption.
  Qed.
  Lemma ion_change_user_loop pw fuel : forall p, igoes_on (change_user_loop sha1 sha256 false pw fuel p).
  Proof.
    induction fuel as [|fuel IH]; intros p; cbn [change_user_loop]; [ion|].
    apply ion_bind; [auto with on|]. intros msg. ion_conn. apply ion_bind; [apply ion_lift, pon_fst; on|]. intros r.
    destruct r as [err|switch|ok|more]; auto with on.
    - apply ion_bind; [apply ion_lift; on|]. intros p0. unfold gen_init_auth_resp.
      pose proof (on_auth_next sha1 sha256 (set_credential p0 pw) (trim_seed (sw_data switch))) as H.
      destruct (auth_next _ _ _ _) as [a p1]. cbn in H. apply ion_bind; [apply ion_lift, H|]. intros resp.
      apply ion_bind; [apply ion_send|]. intros _. apply IH.
    - destruct p as [p0|]; [|apply ion_panic; auto with on]. pose proof (on_auth_next sha1 sha256 p0 (am_data more)) as H.
      destruct (auth_next _ _ _ _) as [a p1]. cbn in H. apply ion_bind; [apply ion_lift, H|]. intros resp.
      apply ion_bind; [apply ion_send|]. intros _. apply IH.
  Qed.
  Lemma ion_change_user u pw db attrs : igoes_on (conn_change_user sha1 sha256 false u pw db attrs).
  Proof.
    unfold conn_change_user. ion_conn. apply ion_bind; [apply ion_send|]. intros _. ion_conn. apply ion_change_user_loop.
  Qed.
  Lemma builds_on {A} (m n : io A) : builds sha1 sha256 crc m n -> igoes_on n.
  Proof.
    induction 1; auto using ion_bind, ion_lift, ion_attempt, ion_recv, ion_send, ion_handshake, ion_change_user, ion_binlog_files,
      ion_get_var, ion_get_user_var, ion_set_user_var, ion_query_exec, ion_query_qry, ion_stmt_prepare, ion_stmt_exec,
      ion_stmt_exec_close, ion_call_rs, ron_all, ron_first, ron_first_or_none, ron_count, ron_close, ion_request, ion_next_event.
    all: try solve [ion].
    all: apply ion_call_rs; eauto using row_builds_on, ron_all, ron_first, ron_first_or_none, ron_count.
  Qed.
End Programs.

(** ** Which panics are left *)
Lemma binary_value_rel_np ct : no_panic (read_binary_value_rel ct).
Proof.
  intros bs. destruct (binary_value_exact ct bs) as [P R].
  assert (K : ct <> TDouble -> returns (fst (read_binary_value ct bs))).
  { intros N. destruct (fst (read_binary_value ct bs)) as [a|e|w|]; [left; eauto | right; eauto | | congruence].
    destruct (proj1 (P w) eq_refl) as [_ [H _]]. contradiction. }
  destruct ct; try (apply K; discriminate). cbn [read_binary_value_rel]. revert bs P R K.
  assert (N : no_panic (pmap BDouble read_le_f64_rel)).
  { apply no_panic_map. intros bs. unfold read_le_f64_rel. destruct (_ <? _)%nat; [right; eexists; reflexivity|].
    apply no_panic_at. apply no_panic_map, good_no_panic, good_take. }
  intros bs _ _ _. apply N.
Qed.
Lemma binary_value_rel_returns ct bs : returns (fst (read_binary_value_rel ct bs)).
Proof. apply binary_value_rel_np. Qed.
Lemma np_header : no_panic read_event_header.
Proof. intros bs. destruct (header_cases bs) as [(h & rest & -> & _)|[e ->]]; [left|right]; eexists; reflexivity. Qed.
#[export] Hint Resolve np_header : parse.
Lemma skip_event_rel_returns pv bs : returns (fst (skip_event_rel pv bs)).
Proof. revert bs. change (no_panic (skip_event_rel pv)). unfold skip_event_rel. pt. Qed.
Lemma binary_cols_rel_np cts bits : forall idx, (idx + length cts <= 8 * length bits)%nat ->
  no_panic (read_binary_cols_rel cts bits idx).
Proof.
  induction cts as [|ct cts IH]; intros idx L; cbn [read_binary_cols_rel]; [pt|].
  cbn [length] in L. rewrite bm_next_some by lia. apply no_panic_bind; [apply np_in_pattern; left; eexists; reflexivity|].
  intros [null|]; [|pt]. apply no_panic_bind.
  - destruct null; [pt|]. apply binary_value_rel_np.
  - intros v. apply no_panic_bind; [apply IH; lia|]. intros vs. pt.
Qed.
Lemma binary_row_rel_returns cts bs : returns (fst (read_binary_row_rel cts bs)).
Proof.
  revert bs. change (no_panic (read_binary_row_rel cts)). unfold read_binary_row_rel. apply no_panic_bind; [pt|]. intros _. cbv zeta.
  set (k := N.shiftr (N.of_nat (length cts) + 7 + 2) 3). intros bs. unfold pbind.
  destruct (read_len k bs) as [r rest] eqn:E. destruct (good_no_panic _ (good_read_len k) bs) as [[a Ha]|[e He]].
  - rewrite E in Ha. cbn [fst] in Ha. subst r. apply read_len_inv in E. destruct E as [-> El].
    apply binary_cols_rel_np. unfold k in El. rewrite N.shiftr_div_pow2 in El. change (2 ^ 3) with 8 in El. unfold blen in El. lia.
  - rewrite E in He. cbn [fst] in He. subst r. right. eexists. reflexivity.
Qed.
Lemma rsub_small a : a < 4 -> rsub 64 a 4 = 2 ^ 64 + a - 4.
Proof. intros H. unfold rsub. destruct (N.ltb_spec a 4); [reflexivity|lia]. Qed.
Lemma parse_tail_returns crc pv bs : returns (fst (parse_event_rel crc pv false bs)).
Proof.
  revert bs. change (no_panic (parse_event_rel crc pv false)). unfold parse_event_rel. rewrite andb_false_r. pt.
Qed.
Lemma parse_event_rel_exact crc pv validate bs : panics_exactly (fst (parse_event_rel crc pv validate bs))
  (fun w => w = PIndex /\ p_checksum pv = true /\ validate = true /\ announced_length bs < 4 /\
            exists h rest, read_event_header bs = (Ok h, rest)).
Proof.
  apply exact_of.
  - intros w (-> & P & -> & L & h & rest & E). unfold parse_event_rel. rewrite P. cbn [andb].
    destruct (header_cases bs) as [(h' & rest' & E' & Eh & Ll)|[e E']]; [|rewrite E in E'; discriminate].
    rewrite E in E'. assert (h' = h) as -> by congruence. clear E'. unfold pbind at 1, check_checksum_rel, pbind.
    rewrite peek_step, E. cbn [fst]. rewrite peek_step.
    destruct (read_len_cases (h_event_len h) bs) as [(raw & r & Eb & Lr & ->)|[e Ee]].
    + cbn [fst]. unfold split_last4. rewrite rsub_small by lia. destruct (N.ltb_spec (blen raw) (2 ^ 64 + blen raw - 4)); [reflexivity|].
      exfalso. lia.
    + exfalso. unfold read_len in Ee. destruct (N.ltb_spec (blen bs) (h_event_len h)); [|discriminate]. unfold blen in *. lia.
  - destruct (p_checksum pv) eqn:P.
    2:{ left. revert bs. change (no_panic (parse_event_rel crc pv validate)). unfold parse_event_rel. rewrite P. cbn [andb]. pt. }
    destruct validate; [|left; apply parse_tail_returns].
    destruct (header_cases bs) as [(h & rest & E & Eh & Ll)|[e E]].
    2:{ left. right. exists e. unfold parse_event_rel. rewrite P. cbn [andb]. unfold pbind at 1, check_checksum_rel, pbind.
        rewrite peek_step, E. reflexivity. }
    destruct (N.ltb_spec (announced_length bs) 4) as [L|L]; [right; exists PIndex; eauto 10|]. left.
    unfold parse_event_rel. rewrite P. cbn [andb]. rewrite <- Eh in L.
    assert (C : returns (fst (check_checksum_rel crc bs)) /\ snd (check_checksum_rel crc bs) = bs).
    { unfold check_checksum_rel, pbind. rewrite peek_step, E. cbn [fst]. rewrite peek_step.
      destruct (read_len_cases (h_event_len h) bs) as [(raw & r & Eb & Lr & ->)|[e ->]]; [|split; [right; eexists; reflexivity|reflexivity]].
      cbn [fst]. unfold split_last4, rsub. destruct (N.ltb_spec (blen raw) 4); [lia|].
      destruct (N.ltb_spec (blen raw) (blen raw - 4)); [lia|]. unfold plift, split_at.
      assert (NP : no_panic read_le_u32) by pt.
      destruct (NP (skipn (N.to_nat (blen raw - 4)) raw)) as [[x ->]|[x ->]]; [|split; [right; eexists; reflexivity|reflexivity]].
      destruct (_ =? _); (split; [|reflexivity]); [left|right]; eexists; reflexivity. }
    destruct C as [C1 C2]. unfold pbind at 1. destruct (check_checksum_rel crc bs) as [r rest1]. cbn [fst snd] in *. subst rest1.
    destruct C1 as [[u ->]|[e ->]]; [|right; eexists; reflexivity]. apply no_panic_at. pt.
Qed.
Lemma short_event crc pv bs h rest k : p_checksum pv = true -> read_event_header bs = (Ok h, rest) ->
  event_kind_of (h_type h) = Some k -> 19 <= h_event_len h < 23 -> h_event_len h - 19 <= N.of_nat (length rest) ->
  fst (parse_event crc pv false bs) = Panic PArith /\
  exists data more, rest = data ++ more /\ N.of_nat (length data) = h_event_len h - 19 /\
    parse_event_rel crc pv false bs = (Ok (Some (mk_event k h data)), more).
Proof.
  intros P E K L R. destruct (read_len_cases (h_event_len h - 19) rest) as [(data & more & Eb & Lr & Er)|[e Ee]].
  2:{ exfalso. unfold read_len in Ee. destruct (N.ltb_spec (blen rest) (h_event_len h - 19)); [|discriminate]. unfold blen in *. lia. }
  split.
  - unfold parse_event. rewrite P. cbn [andb]. unfold pbind, pret. rewrite E. unfold plift, data_len, csub.
    destruct (N.ltb_spec (h_event_len h) 19); [lia|]. rewrite Er. destruct (N.ltb_spec (blen data) 4); [reflexivity|lia].
  - exists data, more. split; [exact Eb|]. split; [exact Lr|]. unfold parse_event_rel. rewrite P. cbn [andb]. unfold pbind, pret.
    rewrite E. unfold data_len_rel, rsub. destruct (N.ltb_spec (h_event_len h) 19); [lia|]. rewrite Er, K.
    unfold drop_last4. rewrite rsub_small by lia. destruct (N.ltb_spec (blen data) (2 ^ 64 + blen data - 4)); [reflexivity|lia].
Qed.
