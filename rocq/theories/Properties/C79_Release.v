(** * C79: what a release build takes for a greeting, a file, an event, and what its login, stream and events report.  The layouts are in
      Spec/ReleaseAccepts.v *)
From Coq Require Import Strings.String.
From Coq Require Import List NArith ZArith Lia Arith Bool.
From Verif Require Import Model.Base Model.BytesParser Model.Conn Model.Packet Model.Auth Model.Cmd Model.Col Model.Row Model.Stmt Model.Session Model.Event Model.EventBody Model.Stream Model.Release
  Spec.Values Spec.Hostile Spec.BinlogSpec Spec.ResultSets Spec.StreamSpec Spec.Nums Spec.LenEncSpec Spec.Wire Spec.Packets Spec.Framing Spec.Programs Spec.HostileExact Spec.Accepts Spec.AcceptsEvents Spec.AcceptsFile Spec.Verdicts Spec.VerdictsCalls
  Spec.ReleaseAccepts Spec.ReleaseSpec
  Proofs.BaseLemmas Proofs.AcceptsProofs Proofs.AcceptsPackets Proofs.AcceptsRows Proofs.AcceptsEvents Proofs.AcceptsBodies Proofs.AcceptsFileProofs Proofs.VerdictsProofs Proofs.ReleaseAccepts Proofs.ReleaseVerdicts
  Properties.C72_Release Properties.C76_Files Properties.C78_Verdicts Properties.C43_Stream Properties.C78_Login Properties.C78_Calls.
Import ListNotations.
Open Scope N_scope.

(** a greeting *)
Theorem C79_greeting : takes_exactly read_initial_handshake_rel release_greeting_layout.
Proof. exact accepts_greeting_rel. Qed.
Print Assumptions C79_greeting.
(** an event: reading it, skipping it, verifying it without consuming it *)
Theorem C79_events : forall crc self validate,
  takes_exactly (parse_event_rel crc self validate) (release_event_layout crc (p_checksum self) validate) /\
  takes_exactly (skip_event_rel self) (fun _ w => release_skipped_layout w) /\
  (forall bs, checksum_event_rel crc self bs = Ok tt <-> p_checksum self = true /\ checked_layout crc bs).
Proof. intros. split; [apply accepts_event_rel|]. split; [apply accepts_skip_rel|apply accepts_checksum_rel]. Qed.
Print Assumptions C79_events.
(** opening a file and reading its first [n] further events *)
Theorem C79_file : takes_exactly from_binlog_file_rel release_opened_layout /\
  takes_exactly from_fde_bytes_rel (fun o w => exists h, release_first_event_layout h o w) /\
  forall crc validate n, takes_exactly (p <- from_binlog_file_rel ;; prepeat n (parse_event_rel crc p validate)) (release_file_layout crc validate n).
Proof. split; [exact accepts_open_rel|]. split; [exact accepts_first_rel|exact accepts_file_rel]. Qed.
Print Assumptions C79_file.
(** a login, a request for a stream, the next event *)
Theorem C79_login : forall sha1 sha256 opts c, accepting (c_ws c) ->
  reports (handshake_rel sha1 sha256 opts) c (release_login_reply (c_cap c) (o_password opts)).
Proof. exact login_reports_rel. Qed.
Print Assumptions C79_login.
Theorem C79_request_stream : forall uuid random_id o c, accepting (c_ws c) ->
  reports (request_stream_rel uuid random_id o) c (release_stream_reply (c_cap c) o).
Proof. exact stream_reports_rel. Qed.
Print Assumptions C79_request_stream.
Theorem C79_next_event : forall crc s c, s_completed s = false -> delivers (next_event_rel crc s) c (release_event_reply crc s).
Proof. exact event_delivers_rel. Qed.
Print Assumptions C79_next_event.

(** the rows of a statement are those of a build with checks (C78_rows); those of a query have no arithmetic that could overflow *)
Theorem C79_rows : forall rs c, rs_completed rs = false -> delivers_rows binary_rows_rel rs c (binary_row_layout (rs_col_types rs)).
Proof.
  intros rs c H. pose proof (binary_takes_rel rs) as T.
  split; [apply next_row_delivers; assumption|]. split; [apply all_delivers; assumption|]. split; [apply count_delivers; assumption|apply first_delivers; assumption].
Qed.
Print Assumptions C79_rows.

(** ** Where this differs from a build with checks *)
(** an event means the same in both, unless its length is less than that of a header, with a checksum if there are checksums *)
Theorem C79_same_events : forall crc checksums validate o w,
  event_layout crc checksums validate o w <->
  release_event_layout crc checksums validate o w /\
  exists h hw body, w = hw ++ body /\ header_layout h hw /\ 19 + (if checksums then 4 else 0) <= h_event_len h.
Proof.
  intros crc checksums validate o w. split.
  - intros (h & hw & data & trailer & -> & H & L & T & V & ->). pose proof (header_len _ _ H) as Lh. pose proof (header_event_len _ _ H) as B. rewrite !app_length in L. split.
    + exists h, hw, (data ++ trailer), data. split; [reflexivity|]. split; [exact H|]. split.
      { split; [rewrite app_length; lia|]. rewrite app_length, N.mod_small; lia. }
      split; [destruct checksums; [left; eauto|destruct trailer; [rewrite app_nil_r; reflexivity|discriminate T]]|]. split; [|reflexivity].
      intros C. exists (hw ++ data), trailer, []. rewrite app_nil_r, <- app_assoc. specialize (V C). apply andb_true_iff in C. destruct C as [-> _].
      rewrite app_length. repeat split; [exact T|lia|exact V].
    + exists h, hw, (data ++ trailer). split; [reflexivity|]. split; [exact H|]. destruct checksums; lia.
  - intros [(h & hw & body & data & -> & H & [G1 G2] & D & V & ->) (h' & hw' & body' & E & H' & L)].
    assert (h' = h) as -> by (symmetry in E; eapply header_det; [exact H'|exact H|exact E]).
    pose proof (header_len _ _ H) as Lh. pose proof (header_event_len _ _ H) as B.
    assert (Lb : N.of_nat (length body) + 19 = h_event_len h).
    { change (2 ^ 32) with 4294967296 in *. destruct (N.lt_ge_cases (N.of_nat (length body) + 19) 4294967296) as [X|X]; [rewrite N.mod_small in G2 by exact X; exact G2|].
      replace (N.of_nat (length body) + 19) with (N.of_nat (length body) + 19 - 4294967296 + 1 * 4294967296) in G2 by lia. rewrite N.mod_add, N.mod_small in G2 by lia. lia. }
    assert (K : exists trailer, body = data ++ trailer /\ length trailer = (if checksums then 4 else 0)%nat).
    { destruct checksums; [destruct D as [D|[X _]]; [exact D|lia]|]. exists []. subst data. rewrite app_nil_r. auto. }
    destruct K as (trailer & -> & T). exists h, hw, data, trailer. split; [reflexivity|]. split; [exact H|]. rewrite !app_length in *. split; [lia|]. split; [exact T|]. split; [|reflexivity].
    intros C. destruct (V C) as (front & t & more & Ef & Lt & Lf & Y). apply andb_true_iff in C. destruct C as [-> _].
    assert (length more = 0)%nat by (apply (f_equal (@length byte)) in Ef; rewrite !app_length in Ef; lia). destruct more; [|discriminate]. rewrite app_nil_r in Ef.
    rewrite app_assoc in Ef. apply app_eq_app_len in Ef; [|apply (f_equal (@length byte)) in Ef; rewrite !app_length in *; lia]. destruct Ef as [-> ->]. exact Y.
Qed.
Print Assumptions C79_same_events.
(** a greeting, unless the length of its random data is less than 8 *)
Theorem C79_same_greetings : forall h w, greeting_layout h w <->
  release_greeting_layout h w /\ (cap_secure_connection (hs_capabilities h) = true -> 8 <= hs_auth_len h).
Proof.
  intros h w. unfold greeting_layout, release_greeting_layout, greeting_consistent, release_greeting_consistent. cbv zeta.
  assert (B : fields [byte1 (hs_protocol_version h); cstring (hs_server_version h); is_le 4 (hs_connection_id h);
          exactly (hs_auth_data_1 h); any 1; is_le 2 (hs_capabilities h mod 2 ^ 16); byte1 (hs_charset h); is_le 2 (hs_status h);
          is_le 2 (hs_capabilities h / 2 ^ 16); byte1 (hs_auth_len h); any 10; exactly (hs_auth_data_2 h);
          if cap_plugin_auth (hs_capabilities h) then cstring (hs_plugin h) else exactly []] w -> hs_auth_len h < 2 ^ 8).
  { intros F. do 9 (apply fields_cons_inv in F; destruct F as (? & ? & _ & _ & F)). apply fields_cons_inv in F. destruct F as (w1 & ? & _ & X & _). exact (is_le_bound 1 _ _ X). }
  destruct (cap_secure_connection (hs_capabilities h)).
  - split.
    + intros [(A & [L N] & Q) F]. specialize (B F). split; [|intros _; exact L]. split; [|exact F]. split; [exact A|]. split; [|exact Q].
      exists (hs_auth_len h - 8). split; [|exact N]. apply gives_rsub; [exact B|reflexivity|]. unfold rsub. destruct (N.ltb_spec (hs_auth_len h) 8); [lia|reflexivity].
    + intros [[(A & (n & G & N) & Q) F] L]. specialize (B F). specialize (L eq_refl). split; [|exact F]. split; [exact A|]. split; [|exact Q]. split; [exact L|].
      apply gives_rsub in G; [|exact B|reflexivity]. unfold rsub in G. destruct (N.ltb_spec (hs_auth_len h) 8); [lia|]. subst n. exact N.
  - split; [intros [(A & D & Q) F]; specialize (B F); split; [tauto|discriminate]|]. intros [[(A & [_ D] & Q) F] _]. auto.
Qed.
Print Assumptions C79_same_greetings.
(** a first event, unless its length or the table's is too small *)
Theorem C79_same_first_events : forall h o w, first_event_layout h o w <->
  release_first_event_layout h o w /\ 19 <= h_event_len h /\
  exists hw start_and_length more own, w = hw ++ start_and_length ++ more /\ length hw = 19%nat /\ length start_and_length = 57%nat /\ nth_error more 14 = Some own /\ 57 <= b2n own.
Proof.
  intros h o w. unfold first_event_layout, release_first_event_layout. split.
  - intros (start & hl & table & tail & own & F & L & N14 & Own & R). apply fields_cons_inv in F. destruct F as (hw & body & -> & H & F).
    pose proof (header_len _ _ H) as Lh. pose proof (header_event_len _ _ H) as B. rewrite app_length in L. split; [|split; [lia|]].
    + exists start, hl, table, tail, own, hw, body. split; [reflexivity|]. split; [exact H|]. split; [split; [lia|rewrite N.mod_small; lia]|]. split; [exact F|]. split; [exact N14|].
      split; [|exact R]. pose proof (b2n_lt own). split; [|rewrite N.mod_small; [lia|]]; change (2 ^ 8) with 256; lia.
    + apply fields_cons_inv in F. destruct F as (w1 & r1 & -> & F1 & F). apply fields_cons_inv in F. destruct F as (w2 & r2 & -> & [F2 _] & F).
      apply fields_cons_inv in F. destruct F as (w3 & r3 & -> & -> & F). rewrite fields_one in F. unfold exactly in F. subst r3. apply start_len in F1.
      exists hw, (w1 ++ w2), (table ++ tail), own. rewrite <- app_assoc, app_length. repeat split; [exact Lh|lia|exact N14|lia].
  - intros [(start & hl & table & tail & own & hw & body & -> & H & [G1 G2] & F & N14 & [G3 G4] & R) (L & hw' & sl & more & own' & E & L1 & L2 & N14' & L3)].
    pose proof (header_len _ _ H) as Lh. pose proof (header_event_len _ _ H) as B.
    assert (own' = own).
    { apply app_eq_app_len in E; [|lia]. destruct E as [_ E]. pose proof F as F'. apply fields_cons_inv in F'. destruct F' as (w1 & r1 & -> & F1 & F'). apply fields_cons_inv in F'. destruct F' as (w2 & r2 & -> & [F2 _] & F').
      apply fields_cons_inv in F'. destruct F' as (w3 & r3 & -> & -> & F'). rewrite fields_one in F'. unfold exactly in F'. subst r3. apply start_len in F1.
      rewrite app_assoc in E. apply app_eq_app_len in E; [|rewrite app_length; lia]. destruct E as [_ <-]. congruence. }
    subst own'. exists start, hl, table, tail, own. split; [constructor; assumption|]. rewrite app_length. change (2 ^ 32) with 4294967296 in *. change (2 ^ 8) with 256 in *. pose proof (b2n_lt own). split; [|split; [exact N14|split; [|exact R]]].
    + destruct (N.lt_ge_cases (N.of_nat (length body) + 19) 4294967296) as [X|X]; [rewrite N.mod_small in G2 by exact X; lia|].
      replace (N.of_nat (length body) + 19) with (N.of_nat (length body) + 19 - 4294967296 + 1 * 4294967296) in G2 by lia. rewrite N.mod_add, N.mod_small in G2 by lia. lia.
    + destruct (N.lt_ge_cases (N.of_nat (length table) + 57) 256) as [X|X]; [rewrite N.mod_small in G4 by exact X; lia|].
      replace (N.of_nat (length table) + 57) with (N.of_nat (length table) + 57 - 256 + 1 * 256) in G4 by lia. rewrite N.mod_add, N.mod_small in G4 by lia. lia.
Qed.
Print Assumptions C79_same_first_events.

(** ** What a build with all checks reports: the same, unless a check stops it *)
Theorem C79_with_checks : forall sha1 sha256 c, accepting (c_ws c) ->
  (forall opts, stopped_by_checks (fst (handshake sha1 sha256 true opts c)) \/
     reports (handshake sha1 sha256 true opts) c (release_login_reply (c_cap c) (o_password opts))) /\
  (forall user password db attrs, stopped_by_checks (fst (conn_change_user sha1 sha256 true user password db attrs c)) \/
     reports (conn_change_user sha1 sha256 true user password db attrs) c (user_reply (c_cap c) password)) /\
  (forall uuid random_id o, stopped_by_checks (fst (request_stream true uuid random_id o c)) \/
     reports (request_stream true uuid random_id o) c (release_stream_reply (c_cap c) o)).
Proof.
  intros sha1 sha256 c Ac.
  assert (G : forall A (m n : io A) L, builds sha1 sha256 (fun _ => 0) m n -> reports n c L -> stopped_by_checks (fst (m c)) \/ reports m c L).
  { intros A m n L B R. pose proof (C72_programs _ _ _ _ _ _ B c) as S.
    assert (D : stopped_by_checks (fst (m c)) \/ ~ stopped_by_checks (fst (m c))).
    { unfold stopped_by_checks. destruct (fst (m c)) as [a|e|[]|]; try (left; right; reflexivity); try (left; left; reflexivity); right; intros [X|X]; discriminate X. }
    destruct D as [D|D]; [left; exact D|]. right. intros v rest. rewrite <- (S D). apply R. }
  split; [|split]; intros.
  - eapply G; [apply bd_handshake|]. apply C79_login, Ac.
  - eapply G; [apply bd_change_user|]. apply C78_change_user, Ac.
  - eapply G; [apply bd_stream|]. apply C79_request_stream, Ac.
Qed.
Print Assumptions C79_with_checks.

(** *** Examples *)
(** a greeting that announces no random data: 248 bytes of it are read; a build with checks takes it for no greeting *)
Definition bare_greeting (second : nat) : bytes :=
  [x0a] ++ str "8.0" ++ [x00; x01; x00; x00; x00] ++ str "abcdefgh" ++ [x00; xff; xff; x21; x02; x00; xff; xff; x00] ++ repeat x00 10 ++ repeat x41 second ++
  str "mysql_native_password" ++ [x00].
Example C79_bare_greeting : exists h, release_greeting_layout h (bare_greeting 248) /\ length (hs_auth_data_2 h) = 248%nat /\ hs_plugin h = str "mysql_native_password" /\
  forall h', ~ greeting_layout h' (bare_greeting 248).
Proof.
  destruct (fst (read_initial_handshake_rel (bare_greeting 248))) as [h| | |] eqn:E; [|vm_compute in E; discriminate..].
  assert (R : read_initial_handshake_rel (bare_greeting 248) = (Ok h, [])) by (vm_compute in E |- *; rewrite E; reflexivity).
  apply accepts_greeting_rel in R. destruct R as (w & Ew & R). rewrite app_nil_r in Ew. subst w. exists h. split; [exact R|].
  vm_compute in E. injection E as <-. split; [reflexivity|]. split; [reflexivity|]. intros h' X.
  assert (Y : read_initial_handshake (bare_greeting 248 ++ []) = (Ok h', [])) by (apply accepts_greeting; eauto). vm_compute in Y. discriminate Y.
Qed.
(** a login with it *)
Example C79_login_example : forall sha1 sha256,
  let c := mk_conn [RData ([x32; x01; x00; x00] ++ bare_greeting 248 ++ framed x02 ex_ok ++ [x07])] [] [] 0 0 0 in
  let r := handshake_rel sha1 sha256 (mk_opts (str "me") (str "secret") []) c in
  fst r = Ok tt /\ arriving (snd r) = [x07].
Proof.
  intros sha1 sha256 c r. apply (C79_login sha1 sha256 (mk_opts (str "me") (str "secret") []) c I (Done tt) [x07]).
  exists [bare_greeting 248; ex_ok], (([x32; x01; x00; x00] ++ bare_greeting 248) ++ framed x02 ex_ok). split.
  { apply (msw_cons (bare_greeting 248) _ _ _ [x00]); [|apply framed_wire; cbn; lia]. apply (mw_last x00); [unfold full; vm_compute; reflexivity|].
    exists [x32; x01; x00]. split; [split; reflexivity|reflexivity]. }
  split; [unfold c, arriving; cbn [c_rd delivered app]; rewrite app_nil_r, <- !app_assoc; reflexivity|]. split; [reflexivity|].
  destruct C79_bare_greeting as (h & Lh & _ & Pl & _). exists (bare_greeting 248), h, [], ex_ok. split; [reflexivity|]. split.
  - apply fields_cons_inv. exists (bare_greeting 248), []. rewrite app_nil_r. split; [reflexivity|]. split; [exact Lh|]. apply fields_one. exact I.
  - split; [rewrite Pl; left; split; [left; reflexivity|constructor]|].
    exists 0x200. split; [reflexivity|]. split; [reflexivity|]. split; [eexists; reflexivity|]. exists (mk_ok 0 0 0 2 0 [] []). apply (accepts_ok 0x200). vm_compute. reflexivity.
Qed.
(** a stream whose first event has a table of 254 lengths, of which the 15th is 55 = 254 + 57 - 256; a build with checks does not start it *)
Definition long_table : bytes :=
  x00 :: event_front false (mk_log_event 0 15 1 0 0 (fde_body (mk_fde_spec 4 (str "5.7.30-log") 0 19 (repeat x08 14 ++ [x37] ++ repeat x08 239) (Some (1, [x01; x02; x03; x04]))))).
Example C79_request_stream_example :
  let c := mk_conn (Proofs.CommandProofs.chunks (ex_setup ++ [ok_wire 0x01000200 0 0 0 2 0 [] []; ex_rotation; long_table])) [] [] 0x01000200 0 0 in
  (exists s ms w, p_checksum (s_pv4 s) = true /\ length (p_post_header_lengths (s_pv4 s)) = 255%nat /\ messages_wire ms w /\ arriving c = w ++ [] /\ release_stream_reply 0x01000200 bo_new (Done s) ms) /\
  fst (request_stream true example_uuid 9 bo_new c) = Panic PArith.
Proof.
  cbv zeta. set (c := mk_conn _ _ _ _ _ _). split; [|vm_compute; reflexivity].
  assert (E : exists s, p_checksum (s_pv4 s) = true /\ length (p_post_header_lengths (s_pv4 s)) = 255%nat /\
    fst (request_stream_rel example_uuid 9 bo_new c) = Ok s /\ arriving (snd (request_stream_rel example_uuid 9 bo_new c)) = [])
    by (eexists; split; [|split; [|split]]; [| | vm_compute; reflexivity | vm_compute; reflexivity]; reflexivity).
  destruct E as (s & P & L & E & A). exists s. destruct (proj1 (C79_request_stream example_uuid 9 bo_new c I (Done s) []) (conj E A)) as (ms & w & H). eauto.
Qed.
(** an event of one byte in a log with checksums: the byte is its data *)
Definition tiny_event : bytes := [x01; x00; x00; x00; x10; x01; x00; x00; x00; x14; x00; x00; x00; x00; x00; x00; x00; x00; x00; x05].
Example C79_tiny_event : forall crc, release_event_layout crc true false (Some (mk_event KXid (mk_header 1 EtXid 1 20 0 0) [x05])) tiny_event /\
  forall o, ~ event_layout crc true false o tiny_event.
Proof.
  intros crc. split.
  - destruct (proj1 (accepts_event_rel crc (mk_parser [] true) false tiny_event (Some (mk_event KXid (mk_header 1 EtXid 1 20 0 0) [x05])) [])) as (w & Ew & X);
      [vm_compute; reflexivity|]. rewrite app_nil_r in Ew. rewrite Ew. exact X.
  - intros o X. assert (Y : parse_event crc (mk_parser [] true) false (tiny_event ++ []) = (Ok o, [])) by (apply accepts_event; eauto). vm_compute in Y. discriminate Y.
Qed.
(** and so it is delivered from a stream; after it, an event of no use to the library *)
Definition example_stream : binlog_stream := mk_stream (mk_parser [] true) false false false.
Example C79_next_event_example : forall crc,
  let unused := [x01; x00; x00; x00; x00; x01; x00; x00; x00; x17; x00; x00; x00; x00; x00; x00; x00; x00; x00; x01; x02; x03; x04] in
  let c := mk_conn [RData (framed x00 (x00 :: unused) ++ framed x01 (x00 :: tiny_event))] [] [] 0 0 0 in
  fst (next_event_rel crc example_stream c) = Ok (Some (mk_event KXid (mk_header 1 EtXid 1 20 0 0) [x05])) /\
  fst (next_event crc example_stream c) = Panic PArith.
Proof. intros crc unused c. split; vm_compute; reflexivity. Qed.
(** a row with a double; cut short, it is refused in this build and panics in the other *)
Example C79_rows_example :
  let row := [x00; x00; x00; x00; x00; x00; x00; x00; xf0; x3f] in
  binary_row_layout [TDouble] [BDouble 0x3ff0000000000000] row /\
  (exists e, fst (read_binary_row_rel [TDouble] (firstn 8 row)) = Err e) /\ fst (read_binary_row [TDouble] (firstn 8 row)) = Panic PArith.
Proof.
  intros row. split; [|split; [eexists|]; vm_compute; reflexivity].
  destruct (proj1 (accepts_binary_row [TDouble] row [BDouble 0x3ff0000000000000] [])) as (w & Ew & X); [vm_compute; reflexivity|]. rewrite app_nil_r in Ew. rewrite Ew. exact X.
Qed.
