(** * The two programs *)
From Coq Require Import Strings.String.
From Coq Require Import List NArith ZArith Lia Arith Bool.
From Verif Require Import Model.Base Model.BytesParser Model.Utf8 Model.Conn Model.Auth Model.Session Model.Col Model.Rows Model.Event Model.Stream Model.Transform Model.MyBinlog Model.Tools
  Spec.Framing Spec.Session Spec.Packets Spec.AuthSpec Spec.Commands Spec.ResultSets Spec.ExtractSpec Spec.BinlogSpec Spec.Wire Spec.StreamSpec Spec.DmlSpec Spec.Programs Spec.ToolSpec
  Proofs.BaseLemmas Proofs.ConnProofs Proofs.AuthProofs Proofs.SessionProofs Proofs.CommandProofs Proofs.StreamProofs Proofs.ScheduleProofs Proofs.HostileProofs Proofs.DmlProofs Proofs.DmlScheduleProofs.
Import ListNotations.
Open Scope N_scope.

(** ** Logging in *)
Section Login.
  Variables sha1 sha256 : bytes -> bytes.
  Variable checks : bool.
  Hypothesis H20 : forall x, length (sha1 x) = 20%nat.
  Hypothesis H32 : forall x, length (sha256 x) = 32%nat.

  Lemma numbered_split c s g a ps d : awaits_numbered c s g (a ++ ps) d ->
    exists w, messages_wire ps w /\ awaits_numbered c s g a (w ++ d).
  Proof.
    intros (w & w' & M & W & D).
    assert (X : exists w1 w2, messages_wire a w1 /\ messages_wire ps w2 /\ w' = w1 ++ w2).
    { clear - W. revert w' W. induction a as [|m a IH]; intros w' W; [exists [], w'; repeat split; [constructor|exact W]|].
      cbn [app] in W. inversion W as [|p w0 ps0 ws seqs H1 H2]; subst. destruct (IH _ H2) as (w1 & w2 & A & B & ->).
      exists (w0 ++ w1), w2. split; [econstructor; eassumption|]. split; [exact B|]. apply app_assoc. }
    destruct X as (w1 & w2 & A & B & ->). exists w2. split; [exact B|]. exists w, w1. split; [exact M|]. split; [exact A|].
    rewrite D, <- !app_assoc. reflexivity.
  Qed.
  Lemma connect_ok user pw s plugin nonce ps d : no_nul user -> N.of_nat (length user) < 2 ^ 20 -> admits pw s plugin nonce ps d ->
    exists c m w, connect sha1 sha256 checks user pw (Some s) = (Ok tt, Some c) /\ c_out c = w /\ messages_wire [m] w /\
      logs_in sha1 user pw plugin nonce m /\ c_cap c = tool_caps /\ accepting (c_ws c) /\ awaits c ps d.
  Proof.
    intros Hn Hl [g ok -> G (af & ii & st & wa & inf & sta & A1 & A2 & A3 & A4 & A5 & A6 & ->) Ac W|g ok -> Hp G (af & ii & st & wa & inf & sta & A1 & A2 & A3 & A4 & A5 & A6 & ->) Ac W];
      inversion G as [version conn_id seed_1 cap charset status auth_len seed_2 Hg Hs]; subst g.
    - destruct (numbered_split _ _ _ [_] _ _ W) as (w' & W' & Wn).
      destruct (native_login sha1 sha256 checks (mk_opts user pw []) (conn_new s) version conn_id seed_1 cap charset status auth_len seed_2 nonce
        af ii st wa inf sta (w' ++ d) H20 Hg Hs Hn) as (c & m & resp & E & (w & Wm & O) & L & R1 & R2 & C & _ & _ & D & Aw); auto; try (intros []; fail); try reflexivity.
      unfold connect. rewrite E. exists c, m, w. split; [reflexivity|]. split; [exact O|]. split; [exact Wm|]. split.
      + exists resp. split; [exact L|]. intros _. split; assumption.
      + split; [exact C|]. split; [exact Aw|]. exists w'. split; [exact W'|exact D].
    - destruct (numbered_split _ _ _ [_; _] _ _ W) as (w' & W' & Wn).
      destruct (sha2_login sha1 sha256 checks (mk_opts user pw []) (conn_new s) version conn_id seed_1 cap charset status auth_len seed_2
        af ii st wa inf sta (w' ++ d) H32 Hg Hp Hn) as (c & m & E & (w & Wm & O) & L & C & _ & _ & D & Aw); auto; try (intros []; fail); try reflexivity.
      unfold connect. rewrite E. exists c, m, w. split; [reflexivity|]. split; [exact O|]. split; [exact Wm|]. split.
      + eexists. split; [exact L|]. intros X. discriminate X.
      + split; [exact C|]. split; [exact Aw|]. exists w'. split; [exact W'|exact D].
  Qed.
  Lemma connect_rejected user pw s : no_nul user -> N.of_nat (length user) < 2 ^ 20 -> rejects s ->
    exists c, connect sha1 sha256 checks user pw (Some s) = (Err EPacket, Some c).
  Proof.
    intros Hn Hl (Ac & plugin & nonce & g & code & state & msg & d & Hp & G & Hc & W).
    inversion G as [version conn_id seed_1 cap charset status auth_len seed_2 Hg Hs]; subst g.
    assert (X : exists p0 resp p1, new_auth_plugin plugin = Ok p0 /\ gen_init_auth_resp sha1 sha256 p0 pw (seed_1 ++ seed_2) = (Ok resp, p1) /\ blen resp < 251).
    { rewrite Hs. destruct Hp as [-> | ->].
      - exists (Native []). destruct pw as [|b pw].
        + destruct (empty_password sha1 sha256 (Native []) (nonce ++ [x00])) as (p' & E). exists [], p'. repeat split; auto.
        + destruct (native_accepted sha1 sha256 (b :: pw) nonce H20 ltac:(discriminate)) as (resp & p & E & _ & L). exists resp, p.
          repeat split; auto. unfold blen. rewrite L. reflexivity.
      - set (p0 := Sha2 [] [] FastAuthSendScramble false). exists p0. destruct pw as [|b pw].
        + destruct (empty_password sha1 sha256 p0 (nonce ++ [x00])) as (p' & E). exists [], p'. repeat split; auto.
        + pose proof (sha2_ignores_nonce sha1 sha256 p0 (b :: pw) (nonce ++ [x00]) eq_refl ltac:(discriminate)) as R.
          destruct (sha2_flow sha1 sha256 p0 (b :: pw) (nonce ++ [x00]) eq_refl ltac:(discriminate)) as (resp & p1 & E & _).
          rewrite E in R. injection R as ->. eexists _, p1. split; [reflexivity|]. split; [exact E|].
          unfold scramble_caching_sha2, blen. rewrite xor_zip_length; rewrite ?H32; reflexivity. }
    destruct X as (p0 & resp & p1 & X1 & X2 & X3). destruct Hg as (Hv & Hid & Hs1 & Hcap & Hcs & Hst & [H8 Hal] & Hs2 & Hsec & Hpa).
    assert (Q : no_nul plugin /\ utf8_valid plugin = true /\ blen plugin < 2 ^ 20).
    { destruct Hp as [-> | ->]; (split; [unfold no_nul; cbn; intuition discriminate|split; reflexivity]). }
    destruct Q as (Q1 & Q2 & Q3).
    destruct (handshake_login sha1 sha256 checks (mk_opts user pw []) (conn_new s) version conn_id seed_1 cap charset status auth_len seed_2 plugin p0 resp p1 _ _
      Hv Hid Hs1 Hcap Hcs Hst Hal H8 Hs2 Hsec Hpa Q1 Q2 Q3 X1 X2 X3 Hn ltac:(intros []) Hl ltac:(reflexivity) eq_refl Ac W) as (c1 & fuel & login & E & _ & I & _).
    destruct (handshake_loop_err sha1 sha256 checks tool_caps fuel p1 c1 code state msg [] d I Hc ltac:(reflexivity)) as (c' & E').
    exists c'. unfold connect. change (client_caps (o_database (mk_opts user pw []))) with tool_caps in E. rewrite E, E'. reflexivity.
  Qed.
End Login.

Lemma said_after c c' m w (login : bytes -> Prop) reqs ms : c_out c = w -> messages_wire [m] w -> login m -> commanded c c' ms -> Forall2 (fun rq m => rq m) reqs ms ->
  said c' login reqs.
Proof. intros O W L (w' & C & O') F. exists m, w, ms, w'. rewrite O', O. repeat split; auto. Qed.

Lemma blocking_some crc s c r c' : s_non_block s = false -> s_completed s = false -> next_event crc s c = (Ok r, c') -> r <> None.
Proof.
  intros Nb Nc. unfold next_event. rewrite Nc. generalize (S (sched_len (c_rd c))). intros f. revert c.
  induction f as [|f IH]; intros c E; [discriminate E|]. cbn [next_event_loop] in E. apply ibind_inv in E. destruct E as (x & d & R & E).
  destruct x as [x| |]; [injection E as <- _; discriminate|eauto|]. exfalso.
  unfold recv_and_parse_event in R. apply ibind_inv in R. destruct R as (msg & d0 & R0 & R).
  destruct msg as [|h msg]; [discriminate R|]. rewrite Nb in R. cbn [andb] in R.
  destruct (negb (b2n h =? 0)); [discriminate R|]. apply ibind_inv in R. destruct R as ([o|] & d2 & P & R); discriminate R.
Qed.
Lemma request_mode checks uuid id o c s c' : request_stream checks uuid id o c = (Ok s, c') -> s_non_block s = bo_non_block o.
Proof.
  unfold request_stream. intros E.
  repeat match type of E with ibind ?m ?f ?c = (Ok _, _) => apply ibind_inv in E; destruct E as (? & ? & _ & E) end.
  unfold recv_stream_start in E. apply ibind_inv in E. destruct E as (msg & d & _ & E). destruct msg as [|b rest]; [discriminate E|].
  destruct (b2n b =? 255). { unfold server_error in E. apply ibind_inv in E. destruct E as (? & ? & _ & E). discriminate E. }
  destruct (b2n b =? 254). { apply ibind_inv in E. destruct E as (? & ? & _ & E). injection E as <- _. reflexivity. }
  destruct (b2n b =? 0); [|discriminate E]. apply ibind_inv in E. destruct E as (? & ? & _ & E).
  unfold recv_fde in E. apply ibind_inv in E. destruct E as (m & ? & _ & E). destruct (read_u8 m) as [[|?|?|] m']; try discriminate E.
  apply ibind_inv in E. destruct E as ([p q] & ? & _ & E). injection E as <- _. reflexivity.
Qed.

Section Tools.
  Variables sha1 sha256 : bytes -> bytes.
  Variables fmt_f32 fmt_f64 : N -> bytes.
  Variable crc : bytes -> N.
  Variable checks : bool.
  Variable compile : bytes -> option (bytes -> bool).
  Hypothesis H20 : forall x, length (sha1 x) = 20%nat.
  Hypothesis H32 : forall x, length (sha256 x) = 32%nat.

  Lemma filter_compiled f p : filter_is compile f p -> compile_opt compile f = Ok p.
  Proof. destruct f as [x|]; cbn; [intros [H ->]|intros ->]; [|reflexivity]. destruct (compile x); [reflexivity|congruence]. Qed.

  Lemma watch_chain s evs : forall fuel c c1 c2 e, chain crc s c evs c1 -> next_event crc s c1 = (Err e, c2) -> (length evs < fuel)%nat ->
    watch_loop crc fuel s c = (Err e, evs, c2).
  Proof.
    induction evs as [|v evs IH]; intros fuel c c1 c2 e C N L; (destruct fuel as [|fuel]; [lia|]); cbn [watch_loop].
    - inversion C; subst. rewrite N. reflexivity.
    - inversion C as [|? ? cm ? ? N1 C1]; subst. rewrite N1, (IH fuel cm c1 c2 e C1 N ltac:(cbn [length] in L; lia)). reflexivity.
  Qed.
  Lemma watch_blocking s : s_non_block s = false -> s_completed s = false -> forall fuel c es c', watch_loop crc fuel s c = (Ok tt, es, c') -> False.
  Proof.
    intros Nb Nc. induction fuel as [|fuel IH]; intros c es c' E; [discriminate E|]. cbn [watch_loop] in E.
    destruct (next_event crc s c) as [[[e|]| | |] c1] eqn:N; try discriminate E.
    - destruct (watch_loop crc fuel s c1) as [[r es'] c2] eqn:W. injection E as -> _ _. eauto.
    - exact (blocking_some _ _ _ _ _ Nb Nc N eq_refl).
  Qed.
  Lemma watch_ends uuid id conf s files es c : watch sha1 sha256 crc checks uuid id conf s = (Ok tt, files, es, c) -> es = [].
  Proof.
    unfold watch. destruct conf as [user pw|]; [|discriminate]. destruct (connect sha1 sha256 checks user pw s) as [[u| | |] [c0|]]; try discriminate; [|intros E; injection E; auto].
    destruct (conn_binlog_files checks c0) as [[fs| | |] c1]; try discriminate.
    destruct (request_stream checks uuid id bo_new c1) as [[st| | |] c2] eqn:R; try discriminate. apply request_mode in R.
    destruct (watch_loop crc _ st c2) as [[r ev] c3] eqn:W. intros E. injection E as -> _ -> _.
    destruct (s_completed st) eqn:Cm; [|exfalso; exact (watch_blocking st R Cm _ _ _ _ W)].
    cbn [watch_loop] in W. unfold next_event in W. rewrite Cm in W. injection W as <- _. reflexivity.
  Qed.

  Lemma list_ok user pw s plugin nonce defs files rows hd ms last d : no_nul user -> N.of_nat (length user) < 2 ^ 20 ->
    defs_ok defs -> heading tool_caps defs hd -> text_rows_wire defs rows ms -> last_message tool_caps last ->
    Forall2 (fun f row => exists t more, row = Some (fst f) :: Some t :: more /\ utf8_valid (fst f) = true /\ unsigned_text (snd f) t /\ snd f < 2 ^ 64) files rows ->
    admits pw s plugin nonce (hd ++ ms ++ [last]) d ->
    exists c, exec_list sha1 sha256 checks user pw (Some s) = (Ok files, Some c) /\
      said c (logs_in sha1 user pw plugin nonce) [asks tool_caps (RqQuery (str "SHOW MASTER LOGS"))].
  Proof.
    intros Hn Hl Hd Hh Hr Hla Hf Ha.
    destruct (connect_ok sha1 sha256 checks H20 H32 user pw s plugin nonce _ d Hn Hl Ha) as (c & m & w & E & O & W & L & C & A & Aw).
    destruct (binlog_files_conv tool_caps checks defs files rows hd ms last Hd Hh Hr Hla Hf c d C A Aw) as (c' & rq & E' & O' & F & _).
    exists c'. unfold exec_list. rewrite E, E'. split; [reflexivity|]. exact (said_after _ _ _ _ _ _ _ O W L O' F).
  Qed.

  Lemma dml_general uuid slave_id user pw filename block s1 s2 df tf o res_ reqs plugin1 nonce1 plugin2 nonce2 ps1 ps2 d1 d2 (asked_ : list bytes -> conn -> conn -> Prop) :
    no_nul user -> N.of_nat (length user) < 2 ^ 20 ->
    admits pw s1 plugin1 nonce1 ps1 d1 -> admits pw s2 plugin2 nonce2 ps2 d2 ->
    filter_is compile df (do_database o) -> filter_is compile tf (do_table o) ->
    (forall c h, c_cap c = tool_caps -> accepting (c_ws c) -> awaits c ps1 d1 -> c_cap h = tool_caps -> accepting (c_ws h) -> awaits h ps2 d2 ->
      exists out c' h' ms, print_dmls fmt_f32 fmt_f64 crc checks o uuid slave_id filename (negb block) c h = (res_, out, c', h') /\
        asked_ out h h' /\ commanded c c' ms /\ Forall2 (fun rq m => rq m) reqs ms) ->
    exists out c h h0 m w, exec_dml sha1 sha256 fmt_f32 fmt_f64 crc checks compile uuid slave_id user pw filename (do_until_now o) df tf block (do_limit o) (Some s1) (Some s2) =
        (res_, out, Some c, Some h) /\ said c (logs_in sha1 user pw plugin1 nonce1) reqs /\
      asked_ out h0 h /\ c_out h0 = w /\ messages_wire [m] w /\ logs_in sha1 user pw plugin2 nonce2 m /\ c_cap h0 = tool_caps.
  Proof.
    intros Hn Hl A1 A2 F1 F2 H.
    destruct (connect_ok sha1 sha256 checks H20 H32 user pw s1 plugin1 nonce1 _ d1 Hn Hl A1) as (c & m & w & E & O & W & L & C & A & Aw).
    destruct (connect_ok sha1 sha256 checks H20 H32 user pw s2 plugin2 nonce2 _ d2 Hn Hl A2) as (h & m' & w' & E' & O' & W' & L' & C' & A' & Aw').
    destruct (H c h C A Aw C' A' Aw') as (out & c1 & h1 & ms & P & K & Cm & Fr).
    exists out, c1, h1, h, m', w'. unfold exec_dml. rewrite E, E', (filter_compiled _ _ F1), (filter_compiled _ _ F2).
    replace (mk_do (do_until_now o) (do_database o) (do_table o) (do_limit o)) with o by (destruct o; reflexivity).
    rewrite P. split; [reflexivity|]. split; [exact (said_after _ _ _ _ _ _ _ O W L Cm Fr)|]. repeat split; auto.
  Qed.

  Lemma dml_end block ending d0 res_ uuid slave_id user pw filename s1 s2 df tf o reqs opening p es items ls answers defs_of plugin1 nonce1 plugin2 nonce2 d2 :
    (forall bs, crc bs < 2 ^ 32) -> slave_id < 2 ^ 32 -> length uuid = 36%nat -> N.of_nat (length filename) < 2 ^ 30 ->
    no_nul user -> N.of_nat (length user) < 2 ^ 20 ->
    filter_is compile df (do_database o) -> filter_is compile tf (do_table o) ->
    opens_log tool_caps (bo_set_non_block (negb block) (bo_set_pos 4 (bo_set_filename filename bo_new))) uuid slave_id reqs opening p ->
    let sums := p_checksum p in
    Forall (log_event_ok sums) es -> Forall2 means (reported sums es) items ->
    (block = false /\ (exists m, ending = [m] /\ eof_message tool_caps m) /\ res_ = Ok tt \/
     ending = [] /\ no_message d0 /\ res_ = if stops_early o items ls then Ok tt else Err EIO) ->
    admits pw s1 plugin1 nonce1 (opening ++ map (event_message crc sums) es ++ ending) d0 ->
    consistent [] (scope (do_until_now o) items) ->
    DmlSpec.printed fmt_f32 fmt_f64 (selected o) defs_of latest [] (scope (do_until_now o) items) = Ok ls ->
    let tms := lookups (selected o) latest [] (scope (do_until_now o) items) in
    Forall2 (fun tm ms => table_answer tool_caps (defs_of (tm_schema_name tm) (tm_table_name tm)) ms) tms answers -> Forall names_ok tms ->
    admits pw s2 plugin2 nonce2 (concat answers) d2 ->
    exists out c h, exec_dml sha1 sha256 fmt_f32 fmt_f64 crc checks compile uuid slave_id user pw filename (do_until_now o) df tf block (do_limit o) (Some s1) (Some s2) =
        (res_, map text out, Some c, Some h) /\ limited (do_limit o) ls out /\
      said c (logs_in sha1 user pw plugin1 nonce1) reqs /\
      exists done rest, scope (do_until_now o) items = done ++ rest /\
        said h (logs_in sha1 user pw plugin2 nonce2) (flat_map (table_requests tool_caps) (lookups (selected o) latest [] done)).
  Proof.
    intros Hcrc Hid Hu Hf Hn Hl F1 F2 Ho sums He Hm End A1 Hcons L tms An Nm A2.
    destruct Ho as [master_id algorithm mode qs ans sum m1 m2 fd Hset Hsum Hr Hd]. fold sums in He, Hm.
    destruct (dml_general uuid slave_id user pw filename block s1 s2 df tf o res_ (qs ++ [asks tool_caps (expected_dump (beqb mode (str "ON")) slave_id
        (bo_set_non_block (negb block) (bo_set_pos 4 (bo_set_filename filename bo_new))))]) plugin1 nonce1 plugin2 nonce2 _ _ _ _
      (fun out h h' => exists ls', out = map text ls' /\ limited (do_limit o) ls ls' /\ exists done rest, scope (do_until_now o) items = done ++ rest /\ asked h h' (lookups (selected o) latest [] done))
      Hn Hl A1 A2 F1 F2) as (out & c & h & h0 & m & w & E & S1 & (ls' & -> & Lm & done & rest & Sc & (ms & Cm & Fm)) & O & W & Lg & C0).
    - intros c h Hc Ac Aw Hch Ah Awh.
      assert (T : tables_answered defs_of h tms d2) by (exists answers; rewrite Hch; auto).
      destruct End as [(-> & (m & -> & Em) & ->)|(-> & Nm0 & ->)].
      + destruct (print_all fmt_f32 fmt_f64 crc checks o defs_of tool_caps uuid slave_id filename master_id algorithm mode qs ans sum m1 m2 fd es m items c h ls
          d0 d2 Hcrc Hid Hu Hf Hset Hsum Hr Hd He Hm Em Hc Ac Aw Hcons L T) as (out & c' & h' & ms & E & X1 & X2 & X3 & X4).
        exists (map text out), c', h', ms. split; [exact E|]. split; [exists out; auto|]. split; [exact X3|exact X4].
      + rewrite app_nil_r in Aw.
        destruct (print_cut fmt_f32 fmt_f64 crc checks o defs_of tool_caps uuid slave_id filename (negb block) master_id algorithm mode qs ans sum m1 m2 fd es items c h ls
          d0 d2 Hcrc Hid Hu Hf Hset Hsum Hr Hd He Hm Nm0 Hc Ac Aw Hcons L T) as (out & c' & h' & ms & E & X1 & X2 & X3 & X4).
        exists (map text out), c', h', ms. split; [exact E|]. split; [exists out; auto|]. split; [exact X3|exact X4].
    - exists ls', c, h. split; [exact E|]. split; [exact Lm|]. split; [exact S1|]. exists done, rest. split; [exact Sc|].
      rewrite C0 in Fm. exact (said_after _ _ _ _ _ _ _ O W Lg Cm Fm).
  Qed.

  (** an event on which [dml] fails *)
  Lemma dml_fails block uuid slave_id user pw filename s1 s2 df tf o reqs opening p es e ev ps d items ls answers defs_of plugin1 nonce1 plugin2 nonce2 d2 r :
    (forall bs, crc bs < 2 ^ 32) -> slave_id < 2 ^ 32 -> length uuid = 36%nat -> N.of_nat (length filename) < 2 ^ 30 ->
    no_nul user -> N.of_nat (length user) < 2 ^ 20 ->
    filter_is compile df (do_database o) -> filter_is compile tf (do_table o) ->
    opens_log tool_caps (bo_set_non_block (negb block) (bo_set_pos 4 (bo_set_filename filename bo_new))) uuid slave_id reqs opening p ->
    let sums := p_checksum p in
    Forall (log_event_ok sums) (es ++ [e]) -> Forall2 means (reported sums es) items -> parsed sums e = Some ev ->
    admits pw s1 plugin1 nonce1 (opening ++ map (event_message crc sums) (es ++ [e]) ++ ps) d ->
    (In IRotate items -> do_until_now o = true) ->
    DmlSpec.printed fmt_f32 fmt_f64 (selected o) defs_of earliest [] items = Ok ls -> (do_limit o = 0 \/ n_stmts ls < do_limit o) ->
    let tms := lookups (selected o) earliest [] items in
    Forall2 (fun tm ms => table_answer tool_caps (defs_of (tm_schema_name tm) (tm_table_name tm)) ms) tms answers -> Forall names_ok tms ->
    admits pw s2 plugin2 nonce2 (concat answers) d2 ->
    fails fmt_f32 fmt_f64 (selected o) defs_of (rev items) ev r ->
    exists c h, exec_dml sha1 sha256 fmt_f32 fmt_f64 crc checks compile uuid slave_id user pw filename (do_until_now o) df tf block (do_limit o) (Some s1) (Some s2) =
        (r, map text ls, Some c, Some h) /\
      said c (logs_in sha1 user pw plugin1 nonce1) reqs /\
      said h (logs_in sha1 user pw plugin2 nonce2) (flat_map (table_requests tool_caps) tms).
  Proof.
    intros Hcrc Hid Hu Hf Hn Hl F1 F2 Ho sums He Hm Hp A1 Hrot L Lim tms An Nm A2 Fa.
    destruct Ho as [master_id algorithm mode qs ans sum m1 m2 fd Hset Hsum Hr Hd]. fold sums in He, Hm, Hp.
    set (opts := bo_set_non_block (negb block) (bo_set_pos 4 (bo_set_filename filename bo_new))) in *.
    destruct (dml_general uuid slave_id user pw filename block s1 s2 df tf o r (qs ++ [asks tool_caps (expected_dump (beqb mode (str "ON")) slave_id opts)])
      plugin1 nonce1 plugin2 nonce2 _ _ _ _
      (fun out h h' => out = map text ls /\ asked h h' tms)
      Hn Hl A1 A2 F1 F2) as (out & c & h & h0 & m & w & E & S1 & (-> & (ms & Cm & Fm)) & O & W & Lg & C0).
    - intros c h Hc Ac Aw Hch Ah Awh.
      assert (T : tables_answered defs_of h tms d2) by (exists answers; rewrite Hch; auto).
      pose proof (request_ok tool_caps checks opts uuid slave_id slave_id master_id algorithm mode qs ans m1 fd m2) as R.
      specialize (R ltac:(reflexivity) Hid Hu ltac:(reflexivity)).
      specialize (R ltac:(unfold options_ok; cbn [bo_pos bo_server_id bo_filename bo_sids opts bo_set_non_block bo_set_pos bo_set_filename bo_new gtids];
        split; [reflexivity|split; [reflexivity|split; [exact Hf|split; [constructor|reflexivity]]]])).
      specialize (R ltac:(intros _; reflexivity) Hset sum Hsum Hr Hd).
      destruct (awaits_app _ _ _ _ Aw) as (d1 & W1 & W2).
      destruct (R c d1 Hc Ac W1) as (c1 & ms & E1 & O1 & G1 & D1 & A3 & C1 & T1). specialize (W2 c1 D1).
      set (st := mk_stream (described_parser fd) false false (negb block)).
      assert (Rp : reported sums (es ++ [e]) = reported sums es ++ [ev]).
      { clear -Hp. induction es as [|x l IH]; cbn [app reported]; [rewrite Hp; reflexivity|]. destruct (parsed sums x); rewrite IH; reflexivity. }
      destruct (stream_events crc st (es ++ [e]) ps d c1 (S (length (reported sums es))) Hcrc eq_refl He) as (es1 & es2 & c2 & Q1 & Q2 & Q3 & _ & Q5).
      { change (p_checksum (s_pv4 st)) with sums. rewrite Rp, app_length. cbn [length]. lia. }
      { exact W2. }
      change (p_checksum (s_pv4 st)) with sums in Q2, Q3.
      assert (Z : reported sums es1 = reported sums es ++ [ev]).
      { assert (K : reported sums (es1 ++ es2) = reported sums es1 ++ reported sums es2).
        { clear. induction es1 as [|x l IH]; cbn [app reported]; [reflexivity|]. destruct (parsed sums x); cbn [app]; rewrite IH; reflexivity. }
        rewrite <- Q1, Rp in K. apply (f_equal (firstn (S (length (reported sums es))))) in K.
        rewrite firstn_all2 in K by (rewrite app_length; cbn [length]; lia). rewrite K, <- Q2, firstn_app, Nat.sub_diag, firstn_all. apply app_nil_r || (symmetry; apply app_nil_r). }
      rewrite Z in Q3.
      destruct (run_failure fmt_f32 fmt_f64 crc checks o st defs_of items (reported sums es) ev c1 c2 h ls d2 r Q3 Hm Hrot L Lim T Fa) as (h' & X & Y & _).
      exists (map text ls), c2, h', ms. split; [unfold print_dmls; fold opts; rewrite E1; exact X|]. split; [split; [reflexivity|exact Y]|].
      split; [eapply commanded_read; [exact O1|exact Q5]|exact G1].
    - exists c, h. split; [exact E|]. split; [exact S1|]. rewrite C0 in Fm. exact (said_after _ _ _ _ _ _ _ O W Lg Cm Fm).
  Qed.

  Lemma watch_ok uuid random_id user pw s plugin nonce defs files rows hd ms last reqs opening p es d :
    (forall bs, crc bs < 2 ^ 32) -> random_id < 2 ^ 32 -> length uuid = 36%nat -> no_nul user -> N.of_nat (length user) < 2 ^ 20 ->
    defs_ok defs -> heading tool_caps defs hd -> text_rows_wire defs rows ms -> last_message tool_caps last ->
    Forall2 (fun f row => exists t more, row = Some (fst f) :: Some t :: more /\ utf8_valid (fst f) = true /\ unsigned_text (snd f) t /\ snd f < 2 ^ 64) files rows ->
    opens_log tool_caps bo_new uuid random_id reqs opening p ->
    Forall (log_event_ok (p_checksum p)) es -> no_message d ->
    admits pw s plugin nonce ((hd ++ ms ++ [last]) ++ opening ++ map (event_message crc (p_checksum p)) es) d ->
    exists c, watch sha1 sha256 crc checks uuid random_id (CTcp user pw) (Some s) = (Err EIO, files, reported (p_checksum p) es, Some c) /\
      said c (logs_in sha1 user pw plugin nonce) (asks tool_caps (RqQuery (str "SHOW MASTER LOGS")) :: reqs).
  Proof.
    intros Hcrc Hid Hu Hn Hl Hd Hh Hr Hla Hf Ho He Nm Ha.
    destruct (connect_ok sha1 sha256 checks H20 H32 user pw s plugin nonce _ d Hn Hl Ha) as (c & m & w & E & O & W & L & C & A & Aw).
    destruct (awaits_app _ _ _ _ Aw) as (d1 & W1 & W2).
    destruct (binlog_files_conv tool_caps checks defs files rows hd ms last Hd Hh Hr Hla Hf c d1 C A W1) as (c1 & rq & E1 & O1 & F1 & D1 & A1 & C1 & _).
    destruct Ho as [master_id algorithm mode qs ans sum m1 m2 fd Hset Hsum Hro Hde].
    specialize (W2 c1 D1). destruct (awaits_app _ _ _ _ W2) as (d2 & W3 & W4).
    pose proof (request_ok tool_caps checks bo_new uuid random_id random_id master_id algorithm mode qs ans m1 fd m2) as R.
    specialize (R ltac:(reflexivity) Hid Hu ltac:(reflexivity)).
    specialize (R ltac:(unfold options_ok; cbn [bo_pos bo_server_id bo_filename bo_sids bo_new gtids]; repeat split; try reflexivity; constructor)).
    specialize (R ltac:(intros _; reflexivity) Hset sum Hsum Hro Hde).
    destruct (R c1 d2 C1 A1 W3) as (c2 & ms2 & E2 & O2 & F2 & D2 & A2 & C2 & _). specialize (W4 c2 D2).
    destruct (stream_cut crc (mk_stream (described_parser fd) (bo_validate bo_new) false (bo_non_block bo_new)) es d c2 Hcrc eq_refl He Nm W4) as (c3 & P).
    destruct (chain_pulls _ _ _ _ _ _ _ eq_refl P) as (c4 & Ch & Nx).
    exists c3. unfold watch. rewrite E, E1, E2, (watch_chain _ _ _ _ _ _ _ Ch Nx (chain_fuel _ _ _ _ _ Ch)).
    split; [reflexivity|]. apply (said_after c c3 m w _ _ (rq ++ ms2) O W L).
    - eapply commanded_trans; [exact O1|]. eapply commanded_read; [exact O2|].
      assert (K : forall evs a b, chain crc (mk_stream (described_parser fd) (bo_validate bo_new) false (bo_non_block bo_new)) a evs b -> same_but_read a b).
      { induction 1 as [|? ? ? ? ? N1 _ IH]; [apply sbr_refl|]. apply next_reads in N1. eapply sbr_trans; eassumption. }
      apply next_reads in Nx. eapply sbr_trans; [exact (K _ _ _ Ch)|exact Nx].
    - change (asks tool_caps (RqQuery (str "SHOW MASTER LOGS")) :: ?l) with ([asks tool_caps (RqQuery (str "SHOW MASTER LOGS"))] ++ l).
      apply Forall2_app; assumption.
  Qed.
End Tools.
