(** * C53, continued: exactly when a peer brings a call down.  The output is accepted. *)
From Coq Require Import Strings.String.
From Coq Require Import List NArith ZArith Lia Arith Bool.
From Verif Require Import Model.Base Model.BytesParser Model.LenEnc Model.Conn Model.Flags Model.Packet Model.Auth Model.Cmd Model.Col Model.Row Model.Stmt
  Model.Extract Model.Session Model.Event Model.Stream Spec.Framing Spec.Decoders Spec.Catalogue Spec.Programs Spec.Panics Spec.Hostile Spec.HostileExact
  Proofs.BaseLemmas Proofs.ConnProofs Proofs.HostileProofs Proofs.HostileExactProofs.
Import ListNotations.
Open Scope N_scope.

Definition no_digest (x : bytes) : bytes := x.
Lemma never_loops {A} checks (m : io A) c : program no_digest no_digest (fun _ => 0) checks m -> fst (m c) <> Loop.
Proof. intros P E. destruct (program_tame _ _ _ _ _ m P c) as [_ H]. rewrite E in H. exact H. Qed.
Lemma fits_exec checks sql : sendable checks sql -> checks = false \/ packet_count (blen (write_query sql)) <= 255.
Proof.
  intros [H|H]; [left; exact H|right]. destruct (small_fits true (write_query sql)) as [F|F]; [right|discriminate F|exact F]. unfold write_query, write_bytes. rewrite app_length.
  change (length (write_u8 (command_byte CmdQuery))) with 1%nat. lia.
Qed.
Lemma fits_stmt checks id ps : params_size checks id ps -> checks = false \/ packet_count (blen (write_stmt_execute id ps)) <= 255.
Proof. intros [H|H]; [left; exact H|right]. destruct (small_fits true (write_stmt_execute id ps)) as [F|F]; [right; lia|discriminate F|exact F]. Qed.
Lemma empty_after c (w : panic) : (w = PIndex /\ after_some (arriving c) passed_over (fun m => m = [])) <-> w = PIndex /\ exists earlier, Forall passed_over earlier /\ follow (arriving c) earlier [].
Proof. split; intros [-> H]; (split; [reflexivity|]); [destruct H as (l & m & F & Fo & ->); eauto|]. destruct H as (l & F & Fo). exists l, []. auto. Qed.

(** ** Statements without a result set *)
(** A statement panics exactly when an empty message arrives before any OK or ERR *)
Theorem C53_exec_exact : forall checks sql c, accepting (c_ws c) -> sendable checks sql ->
  panics_exactly (fst (query_exec checks sql c)) (fun w => w = PIndex /\ exists earlier, Forall passed_over earlier /\ follow (arriving c) earlier []).
Proof.
  intros checks sql c Ac S. apply exactly_panics; [|apply (never_loops checks); apply pg_exec]. eapply exactly_iff; [intros w; apply empty_after|].
  apply query_exec_exactly; [exact Ac|apply fits_exec; exact S].
Qed.
Print Assumptions C53_exec_exact.
Theorem C53_stmt_exec_exact : forall checks ps params c, accepting (c_ws c) -> params_size checks (ps_stmt_id ps) params ->
  panics_exactly (fst (stmt_exec checks ps params c)) (fun w => w = PIndex /\ exists earlier, Forall passed_over earlier /\ follow (arriving c) earlier []) /\
  panics_exactly (fst (stmt_exec_close checks ps params c)) (fun w => w = PIndex /\ exists earlier, Forall passed_over earlier /\ follow (arriving c) earlier []).
Proof.
  intros checks ps params c Ac S.
  assert (X : exactly (stmt_exec checks ps params) c (fun w => w = PIndex /\ exists earlier, Forall passed_over earlier /\ follow (arriving c) earlier [])).
  { eapply exactly_iff; [intros w; apply empty_after|]. apply stmt_exec_exactly; [exact Ac|apply fits_stmt; exact S]. }
  split; apply exactly_panics; [exact X|apply (never_loops checks); apply pg_stmt_exec| |apply (never_loops checks); apply pg_stmt_exec_close].
  intros w. rewrite <- (X w). unfold stmt_exec_close. cbv zeta.
  assert (Cl : forall d, (exists d', stmt_close checks ps d = (Ok tt, d')) \/ (exists d', stmt_close checks ps d = (Err EIO, d'))).
  { intros d. apply send_cases. apply close_fits. }
  destruct (stmt_exec checks ps params c) as [r d]. destruct (Cl d) as [(d' & E)|(d' & E)]; destruct r as [u|e|p|]; rewrite ?E; cbn [fst]; split; intros Z; try discriminate Z; exact Z.
Qed.
Print Assumptions C53_stmt_exec_exact.

(** ** Queries *)
(** A query panics exactly when the first message is empty, or NULL for the number of columns; nothing that follows a
    good first message brings it down *)
Theorem C53_query_exact : forall checks sql c, accepting (c_ws c) -> sendable checks sql ->
  panics_exactly (fst (query_qry checks sql c)) (fun w => w = PIndex /\ (follow (arriving c) [] [] \/ follow (arriving c) [] [xfb])).
Proof.
  intros checks sql c Ac S. apply exactly_panics; [|apply (never_loops checks); apply pg_qry]. apply query_qry_exactly; [exact Ac|apply fits_exec; exact S].
Qed.
Print Assumptions C53_query_exact.
Theorem C53_stmt_query_exact : forall checks ps params c, accepting (c_ws c) -> params_size checks (ps_stmt_id ps) params ->
  panics_exactly (fst (stmt_qry checks ps params c)) (fun w => w = PIndex /\ (follow (arriving c) [] [] \/ follow (arriving c) [] [xfb])).
Proof.
  intros checks ps params c Ac S. apply exactly_panics; [|apply (never_loops checks); apply pg_stmt_qry]. apply stmt_qry_exactly; [exact Ac|apply fits_stmt; exact S].
Qed.
Print Assumptions C53_stmt_query_exact.

(** ** Rows of a prepared statement *)
Lemma source_binary {A} (next : rs_io (option A)) : binary_source next -> row_source next.
Proof. intros []; constructor. Qed.
(** Asking for a row panics exactly when the next message is a row cut inside a DOUBLE *)
Theorem C53_row_exact : forall A (next : rs_io (option A)) rs c, binary_source next ->
  panics_exactly (fst (call_rs next rs c)) (fun w => w = PArith /\ rs_completed rs = false /\
    exists msg, follow (arriving c) [] msg /\ row_message msg /\ binary_row_panics (rs_col_types rs) msg).
Proof.
  intros A next rs c B. apply exactly_panics; [|apply (never_loops true); apply pg_next; apply source_binary; exact B].
  apply (next_exactly next rs c). apply source_steps. exact B.
Qed.
Print Assumptions C53_row_exact.
(** Asking for all of them panics exactly when such a message follows sound rows *)
Theorem C53_whole_set_exact : forall A (next : rs_io (option A)) rs c, binary_source next ->
  let down w := w = PArith /\ rs_completed rs = false /\
    exists earlier msg, Forall (sound_row (rs_col_types rs)) earlier /\ follow (arriving c) earlier msg /\ row_message msg /\ binary_row_panics (rs_col_types rs) msg in
  panics_exactly (fst (call_rs (rs_all next) rs c)) down /\ panics_exactly (fst (call_rs (rs_count next) rs c)) down /\
  panics_exactly (fst (call_rs (rs_first_or_none next) rs c)) down /\ panics_exactly (fst (call_rs (rs_first next) rs c)) down.
Proof.
  intros A next rs c Bs down. pose proof (source_binary next Bs) as Sb. destruct (whole_exactly next rs c (source_steps next Bs)) as (H1 & H2 & H3 & H4).
  split; [|split; [|split]]; apply exactly_panics; try assumption; apply (never_loops true); first [apply pg_all; exact Sb|apply pg_count; exact Sb|apply pg_first_or_none; exact Sb|apply pg_first; exact Sb].
Qed.
Print Assumptions C53_whole_set_exact.

(** ** Events *)
(** Waiting for an event panics exactly when, after events of unknown kinds, one comes that announces too small a length *)
Theorem C53_event_exact : forall crc s c,
  panics_exactly (fst (next_event crc s c)) (fun w => w = PArith /\ s_completed s = false /\
    exists earlier ev, Forall (unknown_event crc (s_pv4 s) (s_validate s)) earlier /\ follow (arriving c) earlier (x00 :: ev) /\
      event_panics crc (p_checksum (s_pv4 s)) (s_validate s) ev).
Proof.
  intros crc s c. apply exactly_panics.
  - eapply exactly_iff; [|apply event_exactly]. intros w. split; intros (-> & C & H); (split; [reflexivity|]; split; [exact C|]).
    + destruct H as (l & m & F & Fo & ev & -> & P). eauto.
    + destruct H as (l & ev & F & Fo & P). exists l, (x00 :: ev). eauto.
  - intros E. assert (P : program no_digest no_digest crc true (next_event crc s)) by apply pg_event.
    destruct (program_tame _ _ _ _ _ _ P c) as [_ H]. rewrite E in H. exact H.
Qed.
Print Assumptions C53_event_exact.

(** ** Login and change of user, in builds that do not check for overflow *)
(** Logging in panics exactly when the greeting has a short seed or, after further data that the method lets pass, a
    request to use another method arrives *)
Theorem C53_login_exact : forall sha1 sha256 opts c, accepting (c_ws c) ->
  panics_exactly (fst (handshake sha1 sha256 false opts c)) (fun w =>
    (w = PArith /\ exists greeting, follow (arriving c) [] greeting /\ short_auth_data greeting) \/
    (w = PUnimplemented /\ exists greeting hs earlier msg, fst (read_initial_handshake greeting) = Ok hs /\
       lets_pass (hs_plugin hs) (o_password opts) earlier /\ follow (arriving c) (greeting :: earlier) msg /\ switch_request msg)).
Proof.
  intros sha1 sha256 opts c Ac. apply exactly_panics; [apply login_exactly; exact Ac|]. intros E.
  assert (P : program sha1 sha256 (fun _ => 0) false (handshake sha1 sha256 false opts)) by apply pg_handshake. destruct (program_tame _ _ _ _ _ _ P c) as [_ H]. rewrite E in H. exact H.
Qed.
Print Assumptions C53_login_exact.
(** Changing the user panics exactly when the first reply is further data: after a request to use a method nothing
    brings it down *)
Theorem C53_change_user_exact : forall sha1 sha256 user pw db attrs c, accepting (c_ws c) ->
  panics_exactly (fst (conn_change_user sha1 sha256 false user pw db attrs c)) (fun w => w = PUnwrap /\ exists data, follow (arriving c) [] (x01 :: data)).
Proof.
  intros sha1 sha256 user pw db attrs c Ac. apply exactly_panics; [apply change_user_exactly; exact Ac|]. intros E.
  assert (P : program sha1 sha256 (fun _ => 0) false (conn_change_user sha1 sha256 false user pw db attrs)) by apply pg_change_user.
  destruct (program_tame _ _ _ _ _ _ P c) as [_ H]. rewrite E in H. exact H.
Qed.
Print Assumptions C53_change_user_exact.

(** *** Examples *)
Lemma short_wire (nr : byte) (p : bytes) (len : byte) : p = [] /\ len = x00 \/ (exists b, p = [b]) /\ len = x01 -> message_wire [nr] p ([len; x00; x00; nr] ++ p).
Proof.
  intros H. apply (mw_last nr p). { destruct H as [[-> _]|[[b ->] _]]; reflexivity. }
  exists [len; x00; x00]. split; [|reflexivity]. destruct H as [[-> ->]|[[b ->] ->]]; split; reflexivity.
Qed.
(** an empty message after one that is passed over; the same messages after an OK do no harm *)
Example C53_exec_exact_example :
  let c := mk_conn [RData [x01; x00; x00; x01; x07; x00]; RPending; RData [x00; x00; x02]] [] [] 0 0 0 in
  (Forall passed_over [[x07]] /\ follow (arriving c) [[x07]] []) /\ fst (query_exec true (str "DO 1") c) = Panic PIndex.
Proof.
  cbv zeta. split; [split|vm_compute; reflexivity].
  - constructor; [|constructor]. exists x07, []. split; [reflexivity|]. split; discriminate.
  - exists [x01; x00; x00; x01; x07], [x02], [x00; x00; x00; x02], []. split; [|split; [apply (short_wire x02 [] x00); auto|reflexivity]].
    apply (msw_cons [x07] [x01; x00; x00; x01; x07] [] [] [x01]); [apply (short_wire x01 [x07] x01); right; eauto|constructor].
Qed.
Example C53_exec_after_ok :
  let c := mk_conn [RData [x07; x00; x00; x01; x00; x00; x00; x02; x00; x00; x00; x00; x00; x00; x02]] [] [] 0x200 0 0 in
  fst (query_exec true (str "DO 1") c) = Ok tt /\ ~ exists earlier, Forall passed_over earlier /\ follow (arriving c) earlier [].
Proof.
  cbv zeta. set (c := mk_conn _ _ _ _ _ _). assert (E : fst (query_exec true (str "DO 1") c) = Ok tt) by (vm_compute; reflexivity). split; [exact E|]. intros H.
  destruct (C53_exec_exact true (str "DO 1") c I (or_intror eq_refl)) as [X _]. assert (Y : fst (query_exec true (str "DO 1") c) = Panic PIndex) by (apply X; auto).
  rewrite E in Y. discriminate Y.
Qed.
(** NULL for the number of columns; further data before any request *)
Example C53_query_exact_example :
  let c := mk_conn [RData [x01; x00; x00; x01; xfb]] [] [] 0 0 0 in
  follow (arriving c) [] [xfb] /\ fst (query_qry true (str "SELECT 1") c) = Panic PIndex.
Proof.
  cbv zeta. split; [|vm_compute; reflexivity]. exists [], [x01], [x01; x00; x00; x01; xfb], []. split; [constructor|]. split; [|reflexivity].
  apply (short_wire x01 [xfb] x01). right. eauto.
Qed.
Example C53_change_user_exact_example :
  let c := mk_conn [RData [x01; x00; x00; x01; x01]] [] [] 0 0 0 in
  (exists data, follow (arriving c) [] (x01 :: data)) /\ fst (conn_change_user no_digest no_digest false (str "u") (str "p") (str "d") [] c) = Panic PUnwrap.
Proof.
  cbv zeta. split; [|vm_compute; reflexivity]. exists []. exists [], [x01], [x01; x00; x00; x01; x01], []. split; [constructor|]. split; [|reflexivity].
  apply (short_wire x01 [x01] x01). right. eauto.
Qed.
(** methods and what they let pass; a request *)
Example C53_lets_pass : lets_pass (str "mysql_native_password") (str "pw") [[x01]; [x01; x04]] /\ lets_pass (str "caching_sha2_password") (str "pw") [[x01; x03]] /\
  ~ lets_pass (str "caching_sha2_password") (str "pw") [[x01; x04]] /\ switch_request (xfe :: str "p" ++ [x00; x01]).
Proof.
  split; [|split; [|split]].
  - left. split; [left; reflexivity|]. repeat constructor; eexists; reflexivity.
  - right. split; [reflexivity|]. split; [discriminate|]. right. exists []. reflexivity.
  - intros [[[X|[_ X]] _]|(_ & _ & [X|(d & X)])]; discriminate X.
  - exists (str "p"), [x01]. split; [reflexivity|]. split; [|reflexivity]. intros [X|[]]. discriminate X.
Qed.
(** a sound row and one cut inside its DOUBLE *)
Definition two_rows : conn := mk_conn [RData ([x0a; x00; x00; x01] ++ repeat x00 10); RData ([x08; x00; x00; x02] ++ repeat x00 8)] [] [] 0 0 0.
Example C53_row_exact_example : let rs := mk_res [] false [TDouble] None in
  fst (call_rs (next_row binary_rows) rs two_rows) <> Panic PArith /\ fst (call_rs (rs_all (next_row binary_rows)) rs two_rows) = Panic PArith /\
  exists earlier msg, Forall (sound_row [TDouble]) earlier /\ follow (arriving two_rows) earlier msg /\ row_message msg /\ binary_row_panics [TDouble] msg.
Proof.
  cbv zeta. split; [vm_compute; discriminate|]. assert (E : fst (call_rs (rs_all (next_row binary_rows)) (mk_res [] false [TDouble] None) two_rows) = Panic PArith) by (vm_compute; reflexivity).
  split; [exact E|]. destruct (C53_whole_set_exact _ (next_row binary_rows) (mk_res [] false [TDouble] None) two_rows bs_row) as ((X & _) & _). apply X in E. apply E.
Qed.
(** an event of an unknown kind and one that announces 18 bytes *)
Definition event_head (code len : byte) : bytes := repeat x00 4 ++ code :: repeat x00 4 ++ len :: repeat x00 9.
Definition two_events : conn := mk_conn [RData ([x14; x00; x00; x01; x00] ++ event_head x1d x13); RData ([x14; x00; x00; x02; x00] ++ event_head x02 x12)] [] [] 0 0 0.
Example C53_event_exact_example : let s := mk_stream (mk_parser (repeat x00 40) false) false false false in
  fst (next_event (fun _ => 0) s two_events) = Panic PArith /\
  exists earlier ev, earlier <> [] /\ Forall (unknown_event (fun _ => 0) (s_pv4 s) false) earlier /\ follow (arriving two_events) earlier (x00 :: ev) /\ event_panics (fun _ => 0) false false ev.
Proof.
  cbv zeta. split; [vm_compute; reflexivity|]. assert (W : forall nr code len, message_wire [nr] (x00 :: event_head code len) ([x14; x00; x00; nr] ++ x00 :: event_head code len)).
  { intros nr code len. apply (mw_last nr (x00 :: event_head code len)); [reflexivity|]. exists [x14; x00; x00]. split; [split; reflexivity|reflexivity]. }
  exists [x00 :: event_head x1d x13], (event_head x02 x12). split; [discriminate|]. split; [|split].
  - constructor; [|constructor]. exists (event_head x1d x13). split; [reflexivity|vm_compute; reflexivity].
  - exists ([x14; x00; x00; x01; x00] ++ event_head x1d x13), [x02], ([x14; x00; x00; x02; x00] ++ event_head x02 x12), []. split; [|split; [apply W|reflexivity]].
    change ([x14; x00; x00; x01; x00] ++ event_head x1d x13) with (([x14; x00; x00; x01] ++ x00 :: event_head x1d x13) ++ []). econstructor; [apply W|constructor].
  - split; [split; [cbv; lia|discriminate]|reflexivity].
Qed.
