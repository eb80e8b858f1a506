(** * The client's side of a conversation *)
From Coq Require Import Strings.String.
From Coq Require Import List NArith ZArith Lia Arith Bool.
From Verif Require Import Model.Base Model.BytesParser Model.LenEnc Model.Utf8 Model.Conn Model.Flags Model.Packet Model.Auth Model.Cmd Model.Col Model.Row Model.Stmt
  Model.Extract Model.Session Model.Event Model.EventBody Model.Stream Spec.Wire Spec.Framing Spec.Packets Spec.AuthSpec Spec.Commands Spec.Execute
  Spec.StreamSpec Spec.Programs Spec.Dialogue
  Proofs.BaseLemmas Proofs.BytesParserProofs Proofs.CodecProofs Proofs.ConnProofs Proofs.PacketProofs Proofs.AuthProofs Proofs.CmdProofs
  Proofs.ExecuteProofs Proofs.StreamProofs Proofs.ScheduleProofs Proofs.HostileProofs.
From Verif Require Proofs.DmlProofs.
Import ListNotations.
Open Scope N_scope.

(** ** Dialogues *)
Lemma dialogue_app cap a b c h1 u1 s1 h2 u2 s2 : dialogue cap a h1 u1 s1 b -> dialogue cap b h2 u2 s2 c ->
  dialogue cap a (h1 ++ h2) (u1 ++ u2) (s1 ++ s2) c.
Proof.
  intros A B. induction B as [|h us s st' seqs msg w B IH W|h us s st' u w B IH W].
  - rewrite !app_nil_r. exact A.
  - rewrite app_assoc. econstructor; eassumption.
  - rewrite !app_assoc. econstructor; eassumption.
Qed.
Lemma dialogue_hears cap st ps h : messages_wire ps h -> exists st', dialogue cap st h [] [] st'.
Proof.
  intros W. revert st. induction W as [|p w ps ws seqs M W IH]; intros st; [eexists; constructor|].
  destruct (IH (Some (last seqs x00))) as [st' D]. exists st'. change (@nil utterance) with (@nil utterance ++ []). change (@nil byte) with (@nil byte ++ []) at 1.
  eapply dialogue_app; [|exact D]. change w with ([] ++ w). econstructor; [constructor|exact M].
Qed.

(** ** Sending *)
Lemma consecutive_mod seqs : forall a b, a mod 256 = b mod 256 -> consecutive a seqs -> consecutive b seqs.
Proof.
  induction seqs as [|x seqs IH]; intros a b E; cbn [consecutive]; [tauto|].
  intros [H1 H2]. split; [congruence|]. apply (IH (a + 1)); [|exact H2]. lia.
Qed.
Lemma wire_exists start msg : start < 256 -> exists seqs w, message_wire seqs msg w /\ consecutive start seqs.
Proof.
  intros H. destruct (send_loop_ok false (S (length msg)) msg (mk_conn [] [] [] 0 0 start)) as (seqs & w & c' & _ & W & _ & Q & _); [exact I|lia|exact H|auto|].
  eauto.
Qed.
Lemma packet_any checks p c : accepting (c_ws c) -> N.of_nat (length p) < 2 ^ 24 -> c_pkt_nr c < 256 ->
  exists w c', packet_wire (n2b (c_pkt_nr c)) p w /\ c_out c' = c_out c ++ w /\ accepting (c_ws c') /\ same_but_write c c' /\
    (send_packet checks p c = (Ok tt, c') /\ c_pkt_nr c' = (c_pkt_nr c + 1) mod 256 \/ checks = true /\ send_packet checks p c = (Panic PArith, c')).
Proof.
  intros Ha Hl Hn. destruct (N.eq_dec (c_pkt_nr c) 255) as [E|E].
  2: { destruct (send_packet_ok checks c p Ha Hl Hn (or_intror E)) as (w & c' & E1 & W & O & P & A & S). exists w, c'. auto 8. }
  destruct checks.
  2: { destruct (send_packet_ok false c p Ha Hl Hn (or_introl eq_refl)) as (w & c' & E1 & W & O & P & A & S). exists w, c'. auto 8. }
  unfold send_packet.
  match goal with |- context [io_write_all ?h] => set (hdr := h) end.
  destruct (io_write_ok c hdr Ha) as (s1 & E1 & A1). rewrite (ibind_ok _ _ _ _ _ E1).
  set (c1 := set_wr c s1 (c_out c ++ hdr)).
  destruct (io_write_ok c1 [n2b (c_pkt_nr c1)] A1) as (s2 & E2 & A2).
  rewrite (ibind_ok (fun c => io_write_all [n2b (c_pkt_nr c)] c) _ c1 _ _ E2).
  set (c2 := set_wr c1 s2 (c_out c1 ++ [n2b (c_pkt_nr c1)])).
  destruct (io_write_ok c2 p A2) as (s3 & E3 & A3). rewrite (ibind_ok _ _ _ _ _ E3).
  set (c3 := set_wr c2 s3 (c_out c2 ++ p)).
  exists (hdr ++ n2b (c_pkt_nr c) :: p), c3. split; [exists hdr; split; [apply hdr_is_le; assumption|reflexivity]|].
  split; [cbn; rewrite <- !app_assoc; reflexivity|]. split; [exact A3|]. split; [repeat split|]. right. split; [reflexivity|].
  unfold inc_pkt_nr. change (c_pkt_nr c3) with (c_pkt_nr c). rewrite E. reflexivity.
Qed.
Lemma sbw_trans a b c : same_but_write a b -> same_but_write b c -> same_but_write a c.
Proof. intros (?&?&?) (?&?&?). repeat split; congruence. Qed.
Lemma send_loop_sent checks fuel : forall bs c, accepting (c_ws c) -> (length bs < fuel)%nat -> c_pkt_nr c < 256 ->
  exists seqs w sent more c', message_wire seqs bs w /\ consecutive (c_pkt_nr c) seqs /\ w = sent ++ more /\ c_out c' = c_out c ++ sent /\
    accepting (c_ws c') /\ same_but_write c c' /\
    (send_loop checks fuel bs c = (Ok tt, c') /\ more = [] \/ checks = true /\ send_loop checks fuel bs c = (Panic PArith, c')).
Proof.
  induction fuel as [|fuel IH]; intros bs c Ha Hf Hn; [lia|]. cbn [send_loop].
  assert (M : max_payload = full) by reflexivity. assert (F : full = 16777215) by reflexivity.
  destruct (N.leb_spec max_payload (blen bs)) as [L|L].
  - set (p := firstn (N.to_nat max_payload) bs). set (r := skipn (N.to_nat max_payload) bs).
    assert (Lp : N.of_nat (length p) = full). { subst p. rewrite firstn_length. unfold blen in L. lia. }
    assert (Eb : bs = p ++ r) by (symmetry; apply firstn_skipn).
    destruct (packet_any checks p c Ha) as (w & c1 & W1 & O1 & A1 & S1 & [[E1 N1]|[C1 E1]]); [rewrite Lp, F; reflexivity|exact Hn| |].
    + rewrite (ibind_ok _ _ _ _ _ E1).
      destruct (IH r c1 A1) as (seqs & w2 & sent & more & c2 & W2 & Q2 & E2 & O2 & A2 & S2 & D).
      { subst r. rewrite skipn_length. unfold blen in L. lia. }
      { rewrite N1. lia. }
      exists (n2b (c_pkt_nr c) :: seqs), (w ++ w2), (w ++ sent), more, c2. split; [rewrite Eb; constructor; assumption|].
      split; [cbn [consecutive]; split; [apply b2n_n2b|]; eapply consecutive_mod; [|exact Q2]; rewrite N1; lia|].
      split; [rewrite E2; apply app_assoc|]. split; [rewrite O2, O1; symmetry; apply app_assoc|]. split; [exact A2|]. split; [eapply sbw_trans; eassumption|]. exact D.
    + rewrite (ibind_panic _ _ _ _ _ E1). destruct (wire_exists ((c_pkt_nr c + 1) mod 256) r) as (seqs & w2 & W2 & Q2); [lia|].
      exists (n2b (c_pkt_nr c) :: seqs), (w ++ w2), w, w2, c1. split; [rewrite Eb; constructor; assumption|].
      split; [cbn [consecutive]; split; [apply b2n_n2b|]; eapply consecutive_mod; [|exact Q2]; lia|]. auto 8.
  - destruct (packet_any checks bs c Ha) as (w & c1 & W1 & O1 & A1 & S1 & D); [unfold blen in L; change (2 ^ 24) with 16777216; lia|exact Hn|].
    exists [n2b (c_pkt_nr c)], w, w, [], c1. split; [constructor; [unfold blen in L; lia|exact W1]|].
    split; [cbn [consecutive]; split; [apply b2n_n2b|exact I]|]. split; [rewrite app_nil_r; reflexivity|]. split; [exact O1|]. split; [exact A1|]. split; [exact S1|].
    destruct D as [[E N]|[C E]]; auto.
Qed.
Lemma send_sent checks msg (reset : bool) c : accepting (c_ws c) -> let start := if reset then 0 else c_pkt_nr c in start < 256 ->
  exists seqs w sent more c', message_wire seqs msg w /\ consecutive start seqs /\ w = sent ++ more /\ c_out c' = c_out c ++ sent /\
    accepting (c_ws c') /\ same_but_write c c' /\
    (send_msg checks msg reset c = (Ok tt, c') /\ more = [] \/ checks = true /\ send_msg checks msg reset c = (Panic PArith, c')).
Proof.
  intros Ha start Hs. unfold send_msg. destruct reset; cbn iota in start.
  - unfold ibind at 1 2. cbn [reset_pkt_nr]. exact (send_loop_sent checks (S (length msg)) msg (set_pkt_nr c 0) Ha ltac:(lia) Hs).
  - unfold ibind at 1 2. cbn [iret]. exact (send_loop_sent checks (S (length msg)) msg c Ha ltac:(lia) Hs).
Qed.

(** ** Listening: calls that send nothing *)
Definition formats (n : N) : bool * bool * bool := (cap_secure_connection n, cap_plugin_auth n, cap_connect_attrs n).
Definition listens {A} (m : io A) : Prop := forall c, exists ps h rest, messages_wire ps h /\ arriving c = h ++ rest /\
  (fst (m c) <> Err EIO -> arriving (snd (m c)) = rest) /\ c_out (snd (m c)) = c_out c /\ c_ws (snd (m c)) = c_ws c /\
  formats (c_cap (snd (m c))) = formats (c_cap c).
Lemma listens_still {A} (m : io A) : (forall c, arriving (snd (m c)) = arriving c /\ c_out (snd (m c)) = c_out c /\ c_ws (snd (m c)) = c_ws c /\
  formats (c_cap (snd (m c))) = formats (c_cap c)) -> listens m.
Proof. intros H c. destruct (H c) as (H1 & H2 & H3 & H4). exists [], [], (arriving c). split; [constructor|]. auto 8. Qed.
Lemma listens_lift {A} (r : res A) : listens (ilift r). Proof. apply listens_still. intros c. auto. Qed.
Lemma listens_ret {A} (a : A) : listens (iret a). Proof. apply (listens_lift (Ok a)). Qed.
Lemma listens_err {A} e : listens (ierr (A := A) e). Proof. apply (listens_lift (Err e)). Qed.
Lemma listens_panic {A} p : listens (ipanic (A := A) p). Proof. apply (listens_lift (Panic p)). Qed.
Lemma listens_parse {A} (p : parser A) msg : listens (parse p msg). Proof. apply listens_lift. Qed.
Lemma listens_recv : listens recv_msg.
Proof.
  intros c. destruct (recv_msg c) as [r d] eqn:E. pose proof (DmlProofs.recv_msg_reads _ _ _ E) as (S1 & S2 & S3 & S4).
  destruct (recv_msg_total c) as [(seqs & p & w & rest & c2 & E2 & W & D & D2)|(c2 & E2)]; rewrite E in E2; injection E2 as -> ->; cbn [fst snd].
  - exists [p], w, rest. split; [rewrite <- (app_nil_r w); econstructor; [exact W|constructor]|]. rewrite S1, S2, S3. auto 8.
  - exists [], [], (arriving c). split; [constructor|]. split; [reflexivity|]. split; [congruence|]. rewrite S1, S2, S3. auto.
Qed.
Lemma listens_bind {A B} (m : io A) (f : A -> io B) : listens m -> (forall a, listens (f a)) -> listens (ibind m f).
Proof.
  intros H F c. destruct (H c) as (ps & h & rest & W & E & R & O & S & K). unfold ibind. destruct (m c) as [[a|e|p|] d]; cbn [fst snd] in *.
  - destruct (F a d) as (ps2 & h2 & rest2 & W2 & E2 & R2 & O2 & S2 & K2). exists (ps ++ ps2), (h ++ h2), rest2.
    split; [apply messages_app; assumption|]. split; [rewrite E, <- app_assoc; f_equal; rewrite <- R by discriminate; exact E2|]. split; [exact R2|].
    split; [congruence|]. split; congruence.
  - exists ps, h, rest. split; [exact W|]. split; [exact E|]. split; [intros X; apply R; congruence|]. auto.
  - exists ps, h, rest. split; [exact W|]. split; [exact E|]. split; [intros X; apply R; congruence|]. auto.
  - exists ps, h, rest. split; [exact W|]. split; [exact E|]. split; [intros X; apply R; congruence|]. auto.
Qed.
Lemma listens_fun {A} (m m' : io A) : (forall c, m c = m' c) -> listens m' -> listens m.
Proof. intros E H c. rewrite E. apply H. Qed.
Lemma listens_cap {A} (f : conn -> io A) : (forall d, listens (f d)) -> listens (fun c => f c c).
Proof. intros H c. exact (H c c). Qed.
Lemma listens_server_error {A} msg : listens (server_error (A := A) msg).
Proof. apply (listens_cap (fun d => e <~ parse (read_err_packet (c_cap d) true) msg ;; ierr (error_of_err_packet e))). intros d. apply listens_bind; [apply listens_parse|]. intros e. apply listens_err. Qed.
Create HintDb ls.
#[export] Hint Resolve listens_lift listens_ret listens_err listens_panic listens_parse listens_recv listens_server_error : ls.
Ltac ls := repeat first
  [ solve [auto with ls nocore]
  | apply listens_bind; [|intros ?]
  | match goal with |- listens (match ?x with _ => _ end) => destruct x
                 | |- listens (let '(_, _) := ?x in _) => destruct x end ].
Lemma listens_ok_only msg : listens (fun c => (_ <~ parse (read_ok_packet (c_cap c)) msg ;; iret tt) c).
Proof. apply (listens_cap (fun d => _ <~ parse (read_ok_packet (c_cap d)) msg ;; iret tt)). intros d. ls. Qed.
Lemma listens_col_defs n : listens (recv_col_defs n). Proof. induction n as [|n IH]; cbn [recv_col_defs]; ls. Qed.
Lemma listens_defs_eof : listens recv_defs_eof.
Proof. apply (listens_cap (fun d => if contains (c_cap d) DEPRECATE_EOF then iret tt else (msg <~ recv_msg ;; _ <~ parse (read_eof_packet (c_cap d)) msg ;; iret tt))). intros d. ls. Qed.
#[export] Hint Resolve listens_ok_only listens_col_defs listens_defs_eof : ls.
Lemma listens_com_response : listens recv_com_response.
Proof.
  unfold recv_com_response. apply listens_bind; [ls|]. intros msg.
  apply (listens_cap (fun d => r <~ parse (read_com_response (c_cap d)) msg ;; match r with CrOk _ => iret tt | CrErr e => ierr (error_of_err_packet e) end)). intros d. ls.
Qed.
Lemma listens_new_rs id : listens (new_result_set id).
Proof.
  apply (listens_cap (fun d => msg <~ recv_msg ;; col_cnt <~ ilift (parse_col_cnt_packet (c_cap d) msg) ;;
    if col_cnt =? 0 then iret (rs_empty id) else col_defs <~ recv_col_defs (N.to_nat col_cnt) ;; _ <~ recv_defs_eof ;; iret (rs_new col_defs id))). intros d. ls.
Qed.
Lemma listens_query_loop f : listens (query_exec_loop f). Proof. induction f as [|f IH]; cbn [query_exec_loop]; ls. Qed.
Lemma listens_stmt_loop f : listens (stmt_exec_loop f). Proof. induction f as [|f IH]; cbn [stmt_exec_loop]; ls. Qed.
Lemma listens_defs_block n : listens (recv_defs_block n). Proof. unfold recv_defs_block. ls. Qed.
#[export] Hint Resolve listens_com_response listens_new_rs listens_query_loop listens_stmt_loop listens_defs_block : ls.
Lemma listens_fields f : forall acc, listens (field_list_loop f acc).
Proof.
  induction f as [|f IH]; intros acc; cbn [field_list_loop]; [ls|]. apply listens_bind; [ls|]. intros msg.
  apply (listens_cap (fun d => r <~ parse (read_field_list_response (c_cap d) true) msg ;;
    match r with FlErr err => ierr (error_of_err_packet err) | FlEof _ => iret acc | FlColDef col_def => field_list_loop f (acc ++ [col_def]) end)). intros d. ls.
Qed.
(** result sets *)
Lemma listens_next {Q} (read : result_set -> parser (list Q)) rs : listens (call_rs (next_row read) rs).
Proof.
  apply (listens_fun _ _ (call_next read rs)). destruct (rs_completed rs); [ls|].
  apply (listens_cap (fun d => ibind recv_msg (fun msg => let '(r, rs') := next_row_msg read (c_cap d) rs msg in ilift (rmap (fun a => (a, rs')) r)))). intros d. ls.
Qed.
Lemma listens_map {Q O} (read : result_set -> parser (list Q)) (f : list Q -> O) rs : listens (call_rs (map_next_row read f) rs).
Proof.
  apply (listens_fun _ (ibind (call_rs (next_row read) rs) (fun '(o, rs') => iret (option_map f o, rs')))).
  - intros c. unfold map_next_row, call_rs, ibind. destruct (next_row read rs c) as [[[o|e|p|] rs'] c']; reflexivity.
  - apply listens_bind; [apply listens_next|]. intros [o rs']. ls.
Qed.
Lemma listens_source {A} (next : rs_io (option A)) : row_source next -> forall rs, listens (call_rs next rs).
Proof. intros [] rs; auto using listens_next, listens_map. Qed.
Lemma listens_while {A B} (next : rs_io (option A)) (step : B -> A -> B) : (forall rs, listens (call_rs next rs)) -> forall f acc rs, listens (call_rs (while_rows f next step acc) rs).
Proof.
  intros H. induction f as [|f IH]; intros acc rs; [apply (listens_fun _ (ilift Loop)); [reflexivity|ls]|].
  apply (listens_fun _ (ibind (call_rs next rs) (fun '(o, rs') => match o with Some row => call_rs (while_rows f next step (step acc row)) rs' | None => iret (acc, rs') end))).
  - intros c. unfold call_rs, ibind. cbn [while_rows]. destruct (next rs c) as [[[[row|]|e|p|] rs'] c'']; reflexivity.
  - apply listens_bind; [apply H|]. intros [[row|] rs']; [apply IH|ls].
Qed.
Lemma listens_rows {A B} (next : rs_io (option A)) (step : B -> A -> B) acc rs : (forall rs, listens (call_rs next rs)) ->
  listens (call_rs (fun rs c => while_rows (S (sched_len (c_rd c))) next step acc rs c) rs).
Proof.
  intros H. apply (listens_fun _ (fun c => call_rs (while_rows (S (sched_len (c_rd c))) next step acc) rs c)); [reflexivity|].
  apply (listens_cap (fun d => call_rs (while_rows (S (sched_len (c_rd d))) next step acc) rs)). intros d. apply listens_while. exact H.
Qed.
Lemma listens_first {A} (next : rs_io (option A)) rs : (forall rs, listens (call_rs next rs)) -> listens (call_rs (rs_first next) rs).
Proof.
  intros H. apply (listens_fun _ (ibind (call_rs (rs_first_or_none next) rs) (fun '(o, rs') => match o with Some row => iret (row, rs') | None => ierr EEmptyResultSet end))).
  - intros c. unfold rs_first, call_rs, ibind. destruct (rs_first_or_none next rs c) as [[[[row|]|e|p|] rs'] c']; reflexivity.
  - apply listens_bind; [apply listens_rows; exact H|]. intros [[row|] rs']; ls.
Qed.
Lemma listens_on_rs {A} (m : rs_io A) rs : listens (call_rs m rs) -> listens (on_rs m rs).
Proof.
  intros H. apply (listens_fun _ (ibind (call_rs m rs) (fun '(a, _) => iret a))).
  - intros c. unfold on_rs, call_rs, ibind. destruct (m rs c) as [[[a|e|p|] rs'] c']; reflexivity.
  - apply listens_bind; [exact H|]. intros [a rs']. ls.
Qed.
Lemma listens_files f : forall files rs, listens (on_rs (binlog_files_loop f files) rs).
Proof.
  induction f as [|f IH]; intros files rs; [apply (listens_fun _ (ilift Loop)); [reflexivity|ls]|].
  apply (listens_fun _ (ibind (call_rs (map_next_row text_rows binlog_file_mapper) rs) (fun '(o, rs') => match o with
        | Some (Ok file) => on_rs (binlog_files_loop f (files ++ [file])) rs' | Some (Err e) => ierr e | Some (Panic p) => ipanic p
        | Some Loop => ilift Loop | None => iret files end))).
  - intros c'. unfold call_rs, on_rs, ibind. cbn [binlog_files_loop]. destruct (map_next_row text_rows binlog_file_mapper rs c') as [[[[[row|e|p|]|]|e|p|] rs'] c'']; reflexivity.
  - apply listens_bind; [apply listens_map|]. intros [[[row|e|p|]|] rs']; try apply IH; ls.
Qed.
Lemma listens_var {V} (from : option bytes -> res V) i rs :
  listens (o <~ on_rs (rs_first_or_none (map_next_row text_rows (fun row => get_col from row i))) rs ;;
           match o with Some var => v <~ ilift var ;; iret (Some v) | None => iret None end).
Proof. apply listens_bind; [apply listens_on_rs, listens_rows; intros; apply listens_map|]. intros o. ls. Qed.
(** events *)
Lemma listens_event_loop crc s f : listens (next_event_loop crc f s).
Proof.
  induction f as [|f IH]; cbn [next_event_loop]; [ls|]. apply listens_bind; [unfold recv_and_parse_event; ls|]. intros e. ls.
Qed.
Lemma listens_event crc s : listens (next_event crc s).
Proof.
  destruct (s_completed s) eqn:C; [apply (listens_fun _ (iret None)); [intros c; unfold next_event; rewrite C; reflexivity|ls]|].
  apply (listens_fun _ (fun c => next_event_loop crc (S (sched_len (c_rd c))) s c)); [intros c; unfold next_event; rewrite C; reflexivity|].
  apply (listens_cap (fun d => next_event_loop crc (S (sched_len (c_rd d))) s)). intros d. apply listens_event_loop.
Qed.
Lemma listens_start checksum o : listens (recv_stream_start checksum o).
Proof.
  unfold recv_stream_start. apply listens_bind; [ls|]. intros [|b msg]; [ls|]. destruct (b2n b =? 255); [ls|]. destruct (b2n b =? 254).
  { apply (listens_cap (fun d => _ <~ parse (read_eof_packet (c_cap d)) (b :: msg) ;; iret (mk_stream (mk_parser [] false) (bo_validate o) true (bo_non_block o)))). intros d. ls. }
  destruct (b2n b =? 0); [|ls]. apply listens_bind; [ls|]. intros _. unfold recv_fde. apply listens_bind; [ls|]. intros m. destruct (read_u8 m) as [[x|e|p|] m']; ls.
Qed.

(** ** Talking *)
Section Talk.
  Variable cap : N.
  Variable checks : bool.
  Implicit Type F L : list utterance -> Prop.
  Definition talks_at {A} F L (st : option byte) (m : io A) (c : conn) : Prop :=
    exists h us s st' cut rest, dialogue cap st h us s st' /\ match fst (m c) with Ok _ => F us | _ => L us end /\
      arriving c = h ++ rest /\ (fst (m c) <> Err EIO -> arriving (snd (m c)) = rest) /\
      c_out (snd (m c)) = c_out c ++ s ++ cut /\
      (cut = [] \/ checks = true /\ fst (m c) = Panic PArith /\ exists u w more, L (us ++ [u]) /\ utters cap st' u w /\ w = cut ++ more) /\
      accepting (c_ws (snd (m c))) /\ formats (c_cap (snd (m c))) = formats (c_cap c).
  Lemma talks_converses {A} F L (m : io A) c : talks_at F L None m c -> converses cap checks F L m c.
  Proof.
    intros (h & us & s & st' & cut & rest & D & R & E & X & O & C & _). unfold converses. destruct (m c) as [r c']. cbn [fst snd] in *.
    exists h, us, s, st', cut, rest. auto 8.
  Qed.
  Lemma talks_imp {A} F L F' L' st (m : io A) c : (forall us, F us -> F' us) -> (forall us, L us -> L' us) -> talks_at F L st m c -> talks_at F' L' st m c.
  Proof.
    intros HF HL (h & us & s & st' & cut & rest & D & R & E & X & O & C & Y). exists h, us, s, st', cut, rest. split; [exact D|].
    split; [destruct (fst (m c)); auto|]. split; [exact E|]. split; [exact X|]. split; [exact O|]. split; [|exact Y].
    destruct C as [C|(C1 & C2 & u & w & more & C3 & C4)]; [auto|]. right. split; [exact C1|]. split; [exact C2|]. exists u, w, more. auto.
  Qed.
  Lemma talks_fun {A} F L st (m m' : io A) c : m c = m' c -> talks_at F L st m' c -> talks_at F L st m c.
  Proof. unfold talks_at. intros ->. exact (fun H => H). Qed.
  Lemma talks_bind {A B} F1 L1 F L st (m : io A) (f : A -> io B) c : talks_at F1 L1 st m c -> (forall us, L1 us -> L us) ->
    (forall a d us1 st1, m c = (Ok a, d) -> F1 us1 -> accepting (c_ws d) -> formats (c_cap d) = formats (c_cap c) ->
       talks_at (fun us => F (us1 ++ us)) (fun us => L (us1 ++ us)) st1 (f a) d) ->
    talks_at F L st (ibind m f) c.
  Proof.
    intros (h & us & s & st1 & cut & rest & D & R & E & X & O & C & Y & K) HL Hf. unfold ibind. destruct (m c) as [[a|e|p|] d] eqn:Em; cbn [fst snd] in *.
    - assert (cut = []) as -> by (destruct C as [C|(_ & C & _)]; [exact C|discriminate C]). rewrite app_nil_r in O.
      destruct (Hf a d us st1 eq_refl R Y K) as (h2 & us2 & s2 & st2 & cut2 & rest2 & D2 & R2 & E2 & X2 & O2 & C2 & Y2 & K2).
      unfold talks_at. rewrite Em. exists (h ++ h2), (us ++ us2), (s ++ s2), st2, cut2, rest2.
      split; [eapply dialogue_app; eassumption|]. split; [exact R2|].
      split; [rewrite E, <- app_assoc; f_equal; rewrite <- X by discriminate; exact E2|]. split; [exact X2|].
      split; [rewrite O2, O, <- !app_assoc; reflexivity|]. split; [|split; [exact Y2|congruence]].
      destruct C2 as [C2|(C1 & C2 & u & w & more & C3 & C4)]; [auto|]. right. split; [exact C1|]. split; [exact C2|]. exists u, w, more. rewrite <- app_assoc. auto.
    - unfold talks_at. rewrite Em. exists h, us, s, st1, cut, rest. cbn [fst snd]. split; [exact D|]. split; [auto|]. split; [exact E|].
      split; [intros Z; apply X; congruence|]. split; [exact O|]. split; [|auto]. destruct C as [C|(_ & C & _)]; [auto|discriminate C].
    - unfold talks_at. rewrite Em. exists h, us, s, st1, cut, rest. cbn [fst snd]. split; [exact D|]. split; [auto|]. split; [exact E|].
      split; [intros Z; apply X; congruence|]. split; [exact O|]. split; [|auto].
      destruct C as [C|(C1 & C2 & u & w & more & C3 & C4)]; [auto|]. right. split; [exact C1|]. split; [congruence|]. exists u, w, more. auto.
    - unfold talks_at. rewrite Em. exists h, us, s, st1, cut, rest. cbn [fst snd]. split; [exact D|]. split; [auto|]. split; [exact E|].
      split; [intros Z; apply X; congruence|]. split; [exact O|]. split; [|auto]. destruct C as [C|(_ & C & _)]; [auto|discriminate C].
  Qed.
  Lemma talks_listens {A} st (m : io A) c : listens m -> accepting (c_ws c) -> talks_at (fun us => us = []) (fun us => us = []) st m c.
  Proof.
    intros H Ha. destruct (H c) as (ps & h & rest & W & E & R & O & S & K). destruct (dialogue_hears cap st ps h W) as [st' D].
    exists h, [], [], st', [], rest. split; [exact D|]. split; [destruct (fst (m c)); reflexivity|]. split; [exact E|]. split; [exact R|].
    split; [rewrite !app_nil_r; exact O|]. split; [auto|]. rewrite S. auto.
  Qed.
  Lemma talks_send msg (reset : bool) u st c : accepting (c_ws c) -> (if reset then 0 else c_pkt_nr c) < 256 ->
    (forall seqs w, message_wire seqs msg w -> consecutive (if reset then 0 else c_pkt_nr c) seqs -> utters cap st u w) ->
    talks_at (fun us => us = [u]) (fun us => us = [] \/ us = [u]) st (send_msg checks msg reset) c.
  Proof.
    intros Ha Hs Hu. destruct (send_sent checks msg reset c Ha Hs) as (seqs & w & sent & more & c' & W & Q & E & O & A & (S1 & S2 & S3) & D).
    specialize (Hu seqs w W Q). assert (R : arriving c' = arriving c) by (unfold arriving; congruence). assert (K : formats (c_cap c') = formats (c_cap c)) by congruence.
    destruct D as [[D ->]|[C D]]; unfold talks_at; rewrite D; cbn [fst snd].
    - rewrite app_nil_r in E. subst sent. exists [], [u], w, None, [], (arriving c).
      split; [change [u] with ([] ++ [u]); change w with ([] ++ w) at 1; econstructor; [constructor|exact Hu]|]. rewrite app_nil_r. auto 8.
    - exists [], [], [], st, sent, (arriving c). split; [constructor|]. split; [auto|]. split; [reflexivity|]. split; [auto|]. split; [exact O|].
      split; [|auto]. right. split; [exact C|]. split; [reflexivity|]. exists u, w, more. auto.
  Qed.
  Lemma next_seq_lt b : next_seq b < 256.
  Proof. unfold next_seq. apply N.mod_upper_bound. discriminate. Qed.
  Lemma talks_reply msg b c : accepting (c_ws c) -> c_pkt_nr c = next_seq b ->
    talks_at (fun us => us = [Replied msg]) (fun us => us = [] \/ us = [Replied msg]) (Some b) (send_msg checks msg false) c.
  Proof.
    intros Ha P. apply talks_send; [exact Ha|rewrite P; apply next_seq_lt|]. rewrite P. intros seqs w W Q. exists seqs, msg. split; [exact W|]. split; [reflexivity|]. eauto.
  Qed.
  Lemma talks_ask q msg st c : puts cap q msg -> accepting (c_ws c) ->
    talks_at (fun us => us = [Asked q]) (fun us => us = [] \/ us = [Asked q]) st (send_msg checks msg true) c.
  Proof. intros P Ha. apply talks_send; [exact Ha|reflexivity|]. intros seqs w W Q. exists seqs, msg. auto. Qed.
  Lemma talks_recv {B} F L st (f : bytes -> io B) c : accepting (c_ws c) -> L [] ->
    (forall msg d b, accepting (c_ws d) -> c_pkt_nr d = next_seq b -> formats (c_cap d) = formats (c_cap c) -> c_cap d = c_cap c -> talks_at F L (Some b) (f msg) d) ->
    talks_at F L st (ibind recv_msg f) c.
  Proof.
    intros Ha HL Hf. destruct (recv_msg c) as [r d] eqn:E. pose proof (DmlProofs.recv_msg_reads _ _ _ E) as (S1 & S2 & S3 & S4).
    destruct (recv_msg_total c) as [(seqs & p & w & rest & c2 & E2 & W & D & D2)|(c2 & E2)].
    - destruct (recv_msg_spec seqs p w c rest W D) as (c3 & E3 & R3 & P3 & _). assert (c3 = d) as -> by congruence. assert (r = Ok p) as -> by congruence. clear E2 E3.
      destruct (Hf p d (last seqs x00)) as (h2 & us2 & s2 & st2 & cut2 & rest2 & D4 & R4 & E4 & X4 & O4 & C4 & Y4 & K4); [congruence|exact P3|congruence|congruence|].
      unfold talks_at. rewrite (ibind_ok _ _ _ _ _ E). exists (w ++ h2), us2, s2, st2, cut2, rest2.
      split; [change us2 with ([] ++ us2); change s2 with ([] ++ s2); eapply dialogue_app; [|exact D4]; change w with ([] ++ w); econstructor; [constructor|exact W]|].
      split; [exact R4|]. split; [unfold arriving in *; rewrite D, <- app_assoc; f_equal; congruence|]. split; [exact X4|]. split; [congruence|]. split; [exact C4|]. split; [exact Y4|congruence].
    - rewrite E in E2. injection E2 as -> <-. unfold talks_at. rewrite (ibind_err _ _ _ _ _ E). cbn [fst snd].
      exists [], [], [], st, [], (arriving c). split; [constructor|]. split; [exact HL|]. split; [reflexivity|]. split; [congruence|].
      split; [rewrite !app_nil_r; exact S2|]. split; [auto|]. split; congruence.
  Qed.
  (** a step that neither hears nor says anything *)
  Lemma talks_lift {A B} F L st (r : res A) (f : A -> io B) c : L [] -> accepting (c_ws c) -> (forall a, r = Ok a -> talks_at F L st (f a) c) -> talks_at F L st (ibind (ilift r) f) c.
  Proof.
    intros HL Ha Hf. destruct r as [a|e|p|]; [exact (Hf a eq_refl)| | |];
      (exists [], [], [], st, [], (arriving c); cbn; rewrite !app_nil_r; split; [constructor|]; auto 8).
  Qed.
  Lemma talks_end {A} F L st (r : res A) c : L [] -> F [] -> accepting (c_ws c) -> talks_at F L st (ilift r) c.
  Proof.
    intros HL HF Ha. exists [], [], [], st, [], (arriving c); cbn; rewrite !app_nil_r. split; [constructor|]. split; [destruct r; assumption|]. auto 8.
  Qed.
  Lemma talks_set {B} F L st g (f : unit -> io B) c : (forall c, c_rd (g c) = c_rd c /\ c_out (g c) = c_out c /\ c_ws (g c) = c_ws c) -> formats (c_cap (g c)) = formats (c_cap c) ->
    talks_at F L st (f tt) (g c) -> talks_at F L st (ibind (fun c => (Ok tt, g c)) f) c.
  Proof.
    intros Hg K. destruct (Hg c) as (G1 & G2 & G3). unfold talks_at, ibind, arriving. rewrite G1, G2, K. exact (fun H => H).
  Qed.

  (** ** Calls *)
  Definition talks_call {A} F (m : io A) : Prop := forall st c, accepting (c_ws c) -> formats (c_cap c) = formats cap -> talks_at F (begins F) st m c.
  Lemma begins_imp F F' us : (forall us, F us -> F' us) -> begins F us -> begins F' us.
  Proof. intros H [more B]. exists more. auto. Qed.
  Lemma call_imp {A} F F' (m : io A) : (forall us, F us -> F' us) -> talks_call F m -> talks_call F' m.
  Proof. intros H T st c Ha K. eapply talks_imp; [exact H| |apply T; assumption]. intros us. apply begins_imp. exact H. Qed.
  Lemma call_fun {A} F (m m' : io A) : (forall c, m c = m' c) -> talks_call F m' -> talks_call F m.
  Proof. intros E T st c Ha K. eapply talks_fun; [apply E|]. apply T; assumption. Qed.
  Lemma call_listens {A} (m : io A) : listens m -> talks_call (fun us => us = []) m.
  Proof. intros H st c Ha _. eapply talks_imp; [| |apply talks_listens; [exact H|exact Ha]]; cbn beta; [auto|]. intros us ->. exists []. reflexivity. Qed.
  Lemma call_send q msg : puts cap q msg -> talks_call (fun us => us = [Asked q]) (send_msg checks msg true).
  Proof.
    intros P st c Ha _. eapply talks_imp; [| |apply (talks_ask q msg); [exact P|exact Ha]]; cbn beta; [auto|]. intros us [-> | ->]; eexists; [reflexivity|]. apply app_nil_r.
  Qed.
  Lemma call_bind {A B X} F1 (G : X -> list utterance -> Prop) (x0 : X) us0 (m : io A) (f : A -> io B) : talks_call F1 m -> G x0 us0 -> (forall a, exists x, talks_call (G x) (f a)) ->
    talks_call (fun us => exists x u1 u2, F1 u1 /\ G x u2 /\ us = u1 ++ u2) (ibind m f).
  Proof.
    intros T G0 Tf st c Ha K. eapply talks_bind; [apply T; assumption| |].
    - intros us [more H]. exists (more ++ us0), x0, (us ++ more), us0. split; [exact H|]. split; [exact G0|]. apply app_assoc.
    - intros a d us1 st1 _ H1 Ha' K'. destruct (Tf a) as [x Tx]. eapply talks_imp; [| |apply Tx; [exact Ha'|congruence]].
      + intros us Hu. exists x, us1, us. auto.
      + intros us [more Hu]. exists more, x, us1, (us ++ more). split; [exact H1|]. split; [exact Hu|]. symmetry. apply app_assoc.
  Qed.
  Lemma call_then {A B} F (m : io A) (f : A -> io B) : talks_call F m -> (forall a, listens (f a)) -> talks_call F (ibind m f).
  Proof.
    intros T H. eapply call_imp; [|apply (call_bind F (fun _ : unit => fun us => us = []) tt [] m f T eq_refl)].
    - intros us (x & u1 & u2 & H1 & -> & ->). rewrite app_nil_r. exact H1.
    - intros a. exists tt. apply call_listens, H.
  Qed.
  Lemma call_seq {A B} F1 F2 us0 (m : io A) (f : A -> io B) : talks_call F1 m -> F2 us0 -> (forall a, talks_call F2 (f a)) ->
    talks_call (fun us => exists u1 u2, F1 u1 /\ F2 u2 /\ us = u1 ++ u2) (ibind m f).
  Proof.
    intros T F0 H. eapply call_imp; [|apply (call_bind F1 (fun _ : unit => F2) tt us0 m f T F0)].
    - intros us (x & u1 & u2 & H1 & H2 & ->). eauto.
    - intros a. exists tt. apply H.
  Qed.
  Lemma call_ask {A} q msg (f : unit -> io A) : puts cap q msg -> listens (f tt) -> talks_call (fun us => us = [Asked q]) (ibind (send_msg checks msg true) f).
  Proof. intros P H. apply call_then; [apply call_send; exact P|]. intros []. exact H. Qed.
End Talk.

(** ** The questions *)
Lemma le32_mod n : write_le_u32 n = write_le_u32 (n mod 2 ^ 32).
Proof. apply to_le_bytes_congr. change (256 ^ N.of_nat 4) with (2 ^ 32). rewrite N.mod_mod by discriminate. reflexivity. Qed.
Lemma puts_request cap rq msg rest : msg = question_code (QRequest rq) :: rest -> (question_ok (QRequest rq) -> server_request cap msg = Some rq) -> puts cap (QRequest rq) msg.
Proof. intros H1 H2. split; [eauto|exact H2]. Qed.
Ltac puts := eapply puts_request; [reflexivity|intros _].
Lemma puts_close cap id : puts cap (QRequest (RqStmtClose (id mod 2 ^ 32))) (write_stmt_close id).
Proof.
  unfold write_stmt_close. rewrite le32_mod. puts. apply (sr_stmt_close cap (id mod 2 ^ 32)). apply N.mod_lt. discriminate.
Qed.
Lemma puts_execute cap id args : puts cap (QExecute (id mod 2 ^ 32) args) (write_stmt_execute id (map to_col args)).
Proof.
  assert (E : write_stmt_execute id (map to_col args) = write_stmt_execute (id mod 2 ^ 32) (map to_col args)) by (unfold write_stmt_execute; rewrite le32_mod; reflexivity).
  rewrite E. split; [eexists; reflexivity|]. cbn [question_ok]. intros Hok. apply execute_request; [apply N.mod_lt; discriminate|exact Hok].
Qed.
Lemma puts_register cap id master : puts cap (QRequest (RqRegisterSlave id [] [] [] 0 0 master)) (write_register_slave (mk_rs id [] [] [] 0 0 master)).
Proof. eapply puts_request; [reflexivity|]. intros [H1 H2]. rewrite sr_register_slave_cut; auto; reflexivity. Qed.
Lemma puts_dump cap mode slave o : puts cap (QRequest (if beqb mode (str "ON") then expected_dump true slave o else expected_dump false slave (bo_set_pos (bo_pos o mod 2 ^ 32) o)))
  (stream_request mode slave o).
Proof.
  unfold stream_request, expected_dump. destruct (beqb mode (str "ON")).
  - eapply puts_request; [reflexivity|]. cbn [question_ok]. intros (H1 & H2 & H3 & H4 & H5). rewrite gtid_request.
    + destruct (bo_sids o); destruct (bo_non_block o); reflexivity.
    + destruct (bo_sids o); destruct (bo_non_block o); reflexivity.
    + destruct (bo_sids o); destruct (bo_non_block o); reflexivity.
    + destruct (bo_sids o); destruct (bo_non_block o); exact H1.
    + destruct (bo_sids o); destruct (bo_non_block o); exact H2.
    + destruct (bo_sids o); destruct (bo_non_block o); exact H3.
    + destruct (bo_sids o); destruct (bo_non_block o); exact H4.
    + destruct (bo_sids o); destruct (bo_non_block o); exact H5.
  - eapply puts_request; [reflexivity|]. cbn [question_ok]. intros (H1 & H2). rewrite dump_request.
    + unfold bo_set_pos. cbn [bo_non_block bo_pos bo_filename]. destruct (bo_non_block o); reflexivity.
    + destruct (bo_non_block o); reflexivity.
    + assert (Q : trunc 32 (bo_pos o) < 2 ^ 32) by (unfold trunc; apply N.mod_lt; discriminate).
      destruct (bo_non_block o); exact Q.
    + destruct (bo_non_block o); reflexivity.
    + destruct (bo_non_block o); exact H2.
Qed.
Lemma mk_attrs attrs : map (fun '(k, v) => mk_attr k v) (map (fun a => (at_key a, at_value a)) attrs) = attrs.
Proof. rewrite map_map. induction attrs as [|[k v] attrs IH]; [reflexivity|]. cbn [map]. f_equal. exact IH. Qed.
Lemma puts_user cap n user db attrs : formats n = formats cap ->
  puts cap (QRequest (RqChangeUser user [] db 33 (if cap_plugin_auth cap then Some (str "mysql_native_password") else None)
              (if cap_connect_attrs cap then Some (map (fun a => (at_key a, at_value a)) attrs) else None)))
    (write_change_user n (new_change_user user [] db (str "mysql_native_password") attrs)).
Proof.
  intros K. assert (E : forall x, write_change_user n x = write_change_user cap x).
  { intros x. unfold formats in K. injection K as K1 K2 K3. unfold write_change_user. rewrite !contains_secure, !contains_plugin, !contains_attrs, K1, K2, K3. reflexivity. }
  rewrite E. clear E K n. eapply puts_request; [reflexivity|]. cbn [question_ok]. intros (H1 & H2 & H3).
  assert (P : no_nul (str "mysql_native_password")) by (vm_compute; repeat split; congruence || (intros X; repeat destruct X as [X|X]; try discriminate X; assumption)).
  destruct (cap_connect_attrs cap) eqn:Ca.
  - rewrite mk_attrs in H3. destruct H3 as [H3 H4]. rewrite sr_change_user; cbn [new_change_user cu_user cu_schema cu_plugin cu_charset cu_auth cu_attrs]; auto.
    + rewrite Ca. reflexivity.
    + reflexivity.
    + destruct (cap_secure_connection cap); [reflexivity|intros []].
  - assert (E : write_change_user cap (new_change_user user [] db (str "mysql_native_password") attrs) = write_change_user cap (new_change_user user [] db (str "mysql_native_password") [])).
    { unfold write_change_user. rewrite contains_attrs, Ca. reflexivity. }
    rewrite E. rewrite sr_change_user; cbn [new_change_user cu_user cu_schema cu_plugin cu_charset cu_auth cu_attrs]; auto.
    + rewrite Ca. reflexivity.
    + reflexivity.
    + destruct (cap_secure_connection cap); [reflexivity|intros []].
    + split; [reflexivity|discriminate].
Qed.

(** ** The calls *)
Lemma formats_multi n (b : bool) : formats (if b then insert n MULTI_STATEMENTS else remove n MULTI_STATEMENTS) = formats n.
Proof.
  unfold formats, cap_secure_connection, cap_plugin_auth, cap_connect_attrs, insert, remove. destruct b; [rewrite !N.lor_spec, !orb_false_r; reflexivity|].
  rewrite !N.ldiff_spec. change (N.testbit MULTI_STATEMENTS 15) with false. change (N.testbit MULTI_STATEMENTS 19) with false. change (N.testbit MULTI_STATEMENTS 20) with false.
  rewrite !andb_true_r. reflexivity.
Qed.
Section Calls.
  Variable sha1 sha256 : bytes -> bytes.
  Hypothesis sha1_20 : forall x, length (sha1 x) = 20%nat.
  Hypothesis sha256_32 : forall x, length (sha256 x) = 32%nat.
  Variable cap : N.
  Variable crc : bytes -> N.
  Variable checks : bool.
  Notation call := (talks_call cap checks).
  Lemma listens_rounds {A} (m : nat -> io A) : (forall f, listens (m f)) -> listens (fun c => m (S (sched_len (c_rd c))) c).
  Proof. intros H. apply (listens_cap (fun d => m (S (sched_len (c_rd d))))). intros d. apply H. Qed.
  Lemma call_qry sql : call (fun us => us = ask1 (RqQuery sql)) (query_qry checks sql).
  Proof. apply call_ask; [puts; apply sr_query|apply listens_new_rs]. Qed.
  Lemma call_prepare sql : call (fun us => us = ask1 (RqStmtPrepare sql)) (stmt_prepare checks sql).
  Proof. apply call_ask; [puts; apply sr_stmt_prepare|]. cbv beta. ls. Qed.
  Lemma call_get_var {V} (from : option bytes -> res V) name (global : bool) :
    call (fun us => us = ask1 (RqQuery (str (if global then "SHOW GLOBAL VARIABLES LIKE '" else "SHOW VARIABLES LIKE '") ++ name ++ str "'"))) (conn_get_var checks from name global).
  Proof. destruct global; (apply call_then; [apply call_qry|]; intros rs; apply listens_var). Qed.
  Lemma close_sent id st c : accepting (c_ws c) -> exists w c', send_msg checks (write_stmt_close id) true c = (Ok tt, c') /\
    utters cap st (Asked (QRequest (RqStmtClose (id mod 2 ^ 32)))) w /\ c_out c' = c_out c ++ w /\ accepting (c_ws c') /\ same_but_write c c'.
  Proof.
    intros Ha. destruct (send_msg_spec checks c (write_stmt_close id) true Ha ltac:(reflexivity)) as (seqs & w & c' & E & W & O & Q & _ & _ & A & S).
    { right. rewrite one_packet by reflexivity. cbv; discriminate. }
    exists w, c'. split; [exact E|]. split; [|auto]. exists seqs, (write_stmt_close id). split; [exact W|]. split; [exact Q|apply puts_close].
  Qed.
  Lemma call_exec_close ps args :
    call (fun us => us = [Asked (QExecute (number_of ps) args); Asked (QRequest (RqStmtClose (number_of ps)))]) (stmt_exec_close checks ps (map to_col args)).
  Proof.
    pose (close := fun (r : res unit) (c : conn) => match stmt_close checks ps c with
      | (Panic p, c') => (Panic p, c') | (Loop, c') => (Loop, c') | (_, c') => (r, c') end).
    pose (g := fun (_ : unit) (c : conn) => match stmt_exec_loop (S (sched_len (c_rd c))) c with
      | (Ok _, c') => close (Ok tt) c' | (Err e, c') => close (Err e) c' | (Panic p, c') => (Panic p, c') | (Loop, c') => (Loop, c') end).
    intros st c Ha K. apply (talks_fun _ _ _ _ _ _ (ibind (send_msg checks (write_stmt_execute (ps_stmt_id ps) (map to_col args)) true) g)).
    { unfold stmt_exec_close, stmt_exec, ibind.
      destruct (send_sent checks (write_stmt_execute (ps_stmt_id ps) (map to_col args)) true c Ha) as (_ & _ & _ & _ & d & _ & _ & _ & _ & _ & _ & [[-> _]|[_ ->]]); reflexivity. }
    eapply talks_bind; [apply talks_ask; [apply puts_execute|exact Ha]| |].
    { cbv beta. intros us [-> | ->]; eexists; reflexivity. }
    cbv beta. intros u d us1 st1 _ -> Ha' K'. clear c Ha K K'. rename d into c, Ha' into Ha. unfold talks_at, g. cbn [List.app].
    destruct (listens_stmt_loop (S (sched_len (c_rd c))) c) as (ps' & h & rest & W & E & R & O & Sw & Kd).
    destruct (dialogue_hears cap st1 ps' h W) as [st' D].
    destruct (stmt_exec_loop (S (sched_len (c_rd c))) c) as [r d] eqn:El. cbn [fst snd] in *.
    destruct (close_sent (ps_stmt_id ps) st' d) as (w & d' & Ec & Uw & Oc & Ac & (S1 & S2 & S3)); [congruence|].
    assert (Cl : forall r', close r' d = (r', d')) by (intros r'; unfold close, stmt_close; rewrite Ec; reflexivity).
    destruct r as [[]|e|p|]; rewrite ?Cl; cbn [fst snd].
    - exists h, [Asked (QRequest (RqStmtClose (number_of ps)))], w, None, [], rest.
      split; [change [Asked (QRequest (RqStmtClose (number_of ps)))] with ([] ++ [Asked (QRequest (RqStmtClose (number_of ps)))]); change w with ([] ++ w); econstructor; [exact D|exact Uw]|].
      split; [reflexivity|]. split; [exact E|]. split; [intros _; unfold arriving in *; rewrite <- R by discriminate; congruence|]. split; [rewrite app_nil_r; congruence|]. split; [auto|]. split; [exact Ac|congruence].
    - exists h, [Asked (QRequest (RqStmtClose (number_of ps)))], w, None, [], rest.
      split; [change [Asked (QRequest (RqStmtClose (number_of ps)))] with ([] ++ [Asked (QRequest (RqStmtClose (number_of ps)))]); change w with ([] ++ w); econstructor; [exact D|exact Uw]|].
      split; [exists []; reflexivity|]. split; [exact E|]. split; [intros N; unfold arriving in *; rewrite <- R by congruence; congruence|]. split; [rewrite app_nil_r; congruence|]. split; [auto|]. split; [exact Ac|congruence].
    - exists h, [], [], st', [], rest. split; [exact D|]. split; [eexists; reflexivity|]. split; [exact E|]. split; [exact R|]. split; [rewrite !app_nil_r; exact O|]. split; [auto|]. split; [congruence|exact Kd].
    - exists h, [], [], st', [], rest. split; [exact D|]. split; [eexists; reflexivity|]. split; [exact E|]. split; [exact R|]. split; [rewrite !app_nil_r; exact O|]. split; [auto|]. split; [congruence|exact Kd].
  Qed.
  Lemma call_set sql v (m : io unit) : m = (stmt <~ stmt_prepare checks sql ;; stmt_exec_close checks stmt [to_col v]) -> call (fun us => exists id, us = set_by sql v id) m.
  Proof.
    intros ->. eapply call_imp; [|eapply (call_bind cap checks _ (fun id us => us = [Asked (QExecute id [v]); Asked (QRequest (RqStmtClose id))]) 0); [apply (call_prepare sql)|reflexivity|]].
    - intros us (id & u1 & u2 & -> & -> & ->). exists id. reflexivity.
    - intros ps. exists (number_of ps). apply (call_exec_close ps [v]).
  Qed.
  (** authentication *)
  Definition knows (pw : bytes) (p : auth_plugin) : Prop := match p with Native q => q = pw | Sha2 q _ _ ssl => q = pw /\ ssl = false end.
  Definition answers (pw : bytes) (us : list utterance) : Prop := exists l, Forall (auth_answer sha1 sha256 pw) l /\ us = map Replied l.
  Lemma answers_nil pw : answers pw []. Proof. exists []. split; [constructor|reflexivity]. Qed.
  Lemma answers_cons pw m us : auth_answer sha1 sha256 pw m -> answers pw us -> answers pw ([Replied m] ++ us).
  Proof. intros H (l & Hl & ->). exists (m :: l). split; [constructor; assumption|reflexivity]. Qed.
  Lemma answers_one pw m us : auth_answer sha1 sha256 pw m -> us = [] \/ us = [Replied m] -> answers pw us.
  Proof. intros H [-> | ->]; [apply answers_nil|]. apply (answers_cons pw m []); [exact H|apply answers_nil]. Qed.
  Lemma auth_next_knows pw p input : knows pw p -> let '(r, p') := auth_next sha1 sha256 p input in
    knows pw p' /\ forall resp, r = Ok resp -> auth_answer sha1 sha256 pw resp.
  Proof.
    unfold auth_next, auth_answer. destruct p as [[|x q]|[|x q] seed stage ssl]; cbn [knows].
    - intros <-. split; [reflexivity|]. intros resp E. injection E as <-. auto.
    - intros <-. split; [reflexivity|]. intros resp E. injection E as <-. right. left. exists input. apply scramble411_accepted. exact sha1_20.
    - intros [<- ->]. split; [auto|]. intros resp E. injection E as <-. auto.
    - intros [<- ->]. destruct stage; unfold full_auth; cbv iota.
      + split; [cbn [knows]; auto|]. intros resp E. injection E as <-. right. right. exists seed. apply sha2_scramble_accepted. exact sha256_32.
      + destruct input as [|b input]; [split; [cbn [knows]; auto|discriminate]|]. destruct (b2n b =? 3).
        { split; [cbn [knows]; auto|]. intros resp E. injection E as <-. auto. }
        destruct (b2n b =? 4); (split; [cbn [knows]; auto|discriminate]).
      + split; [cbn [knows]; auto|discriminate].
      + split; [cbn [knows]; auto|discriminate].
  Qed.
  Lemma new_knows name pw p : new_auth_plugin name = Ok p -> knows pw (set_credential p pw) /\ (name = str "mysql_native_password" \/ name = str "caching_sha2_password").
  Proof.
    unfold new_auth_plugin. destruct (beqb_spec name (str "mysql_native_password")) as [->|_]; [intros E; injection E as <-; split; [reflexivity|auto]|].
    destruct (beqb_spec name (str "caching_sha2_password")) as [->|_]; [intros E; injection E as <-; split; [cbn; auto|auto]|discriminate].
  Qed.
  Lemma talks_answer {B} pw resp b (m : io B) c : auth_answer sha1 sha256 pw resp -> accepting (c_ws c) -> c_pkt_nr c = next_seq b ->
    (forall st d, accepting (c_ws d) -> talks_at cap checks (answers pw) (answers pw) st m d) ->
    talks_at cap checks (answers pw) (answers pw) (Some b) (ibind (send_msg checks resp false) (fun _ => m)) c.
  Proof.
    intros Hr Ha P Hm. eapply talks_bind; [apply talks_reply; assumption|intros us; apply answers_one; exact Hr|].
    cbv beta. intros u d us1 st1 _ -> Ha' _. eapply talks_imp; [| |apply Hm; exact Ha']; intros us; apply answers_cons; exact Hr.
  Qed.
  Lemma talks_user_loop pw : forall fuel p st c, accepting (c_ws c) -> match p with Some q => knows pw q | None => True end ->
    talks_at cap checks (answers pw) (answers pw) st (change_user_loop sha1 sha256 checks pw fuel p) c.
  Proof.
    induction fuel as [|fuel IH]; intros p st c Ha Kp; cbn [change_user_loop]; [apply talks_end; auto using answers_nil|].
    apply talks_recv; [exact Ha|apply answers_nil|]. intros msg d b Ha' Pn _ _.
    eapply talks_fun with (m' := ibind (parse (read_change_user_response (c_cap d)) msg) _); [reflexivity|].
    apply talks_lift; [apply answers_nil|exact Ha'|]. intros [e|sw|ok|more] _.
    - apply talks_end; auto using answers_nil.
    - apply talks_lift; [apply answers_nil|exact Ha'|]. intros p0 Ep. apply (new_knows _ pw) in Ep. destruct Ep as [Ep _]. unfold gen_init_auth_resp.
      pose proof (auth_next_knows pw _ (trim_seed (sw_data sw)) Ep) as X. destruct (auth_next sha1 sha256 (set_credential p0 pw) (trim_seed (sw_data sw))) as [r p1]. destruct X as [X1 X2].
      apply talks_lift; [apply answers_nil|exact Ha'|]. intros resp Er. apply talks_answer; [apply X2; exact Er|exact Ha'|exact Pn|]. intros st' d' Ha2. apply IH; [exact Ha2|exact X1].
    - apply talks_end; auto using answers_nil.
    - destruct p as [p0|]; [|apply talks_end; auto using answers_nil].
      pose proof (auth_next_knows pw _ (am_data more) Kp) as X. destruct (auth_next sha1 sha256 p0 (am_data more)) as [r p1]. destruct X as [X1 X2].
      apply talks_lift; [apply answers_nil|exact Ha'|]. intros resp Er. apply talks_answer; [apply X2; exact Er|exact Ha'|exact Pn|]. intros st' d' Ha2. apply IH; [exact Ha2|exact X1].
  Qed.
  Lemma call_change_user user pw db attrs :
    call (said_by sha1 sha256 cap (CChangeUser user pw db attrs)) (conn_change_user sha1 sha256 checks user pw db attrs).
  Proof.
    intros st c Ha K. unfold conn_change_user.
    eapply talks_fun with (m' := ibind (send_msg checks (write_change_user (c_cap c) (new_change_user user [] db (str "mysql_native_password") attrs)) true) _); [reflexivity|].
    eapply talks_bind; [apply talks_ask; [apply (puts_user cap (c_cap c) user db attrs K)|exact Ha]| |].
    - cbv beta. intros us [-> | ->]; eexists; exists []; (split; [constructor|reflexivity]).
    - cbv beta. intros u d us1 st1 _ -> Ha' _.
      eapply talks_fun with (m' := change_user_loop sha1 sha256 checks pw (S (sched_len (c_rd d))) None); [reflexivity|].
      eapply talks_imp; [| |apply (talks_user_loop pw); [exact Ha'|exact I]].
      + intros us (l & Hl & ->). exists l. split; [exact Hl|reflexivity].
      + intros us (l & Hl & ->). exists []. exists l. split; [exact Hl|]. rewrite app_nil_r. reflexivity.
  Qed.

  (** the stream *)
  Lemma call_required {V} (from : option bytes -> res V) name e : call (fun us => us = global_variable name) (get_required checks from (str name) e).
  Proof. apply call_then; [apply (call_get_var from (str name) true)|]. intros [v|]; ls. Qed.
  Lemma call_chain {A B X} (F1 F : list utterance -> Prop) (G : X -> list utterance -> Prop) (x0 : X) us0 (m : io A) (f : A -> io B) : call F1 m -> G x0 us0 -> (forall a, exists x, call (G x) (f a)) ->
    (forall x u1 u2, F1 u1 -> G x u2 -> F (u1 ++ u2)) -> call F (ibind m f).
  Proof.
    intros H1 H2 H3 H4. eapply call_imp; [|apply (call_bind cap checks F1 G x0 us0 m f); assumption]. intros us (x & u1 & u2 & A1 & A2 & ->). eauto.
  Qed.
  Lemma call_stream uuid id o : call (said_by sha1 sha256 cap (CStream uuid id o)) (request_stream checks uuid id o).
  Proof.
    unfold request_stream.
    pose (slave := if bo_server_id o =? 0 then id else bo_server_id o). fold slave.
    pose (dump := fun us : list utterance => exists on : bool, us = ask1 (if on then expected_dump true slave o else expected_dump false slave (bo_set_pos (bo_pos o mod 2 ^ 32) o))).
    pose (t1 := fun (master : N) (us : list utterance) => exists on : bool, us = ask1 (RqRegisterSlave slave [] [] [] 0 0 master) ++
      ask1 (if on then expected_dump true slave o else expected_dump false slave (bo_set_pos (bo_pos o mod 2 ^ 32) o))).
    pose (t2 := fun (master : N) (us : list utterance) => exists id3 u, us = set_by (str "SET @SLAVE_UUID = ?") (AString uuid) id3 ++ u /\ t1 master u).
    pose (t3 := fun (master : N) (us : list utterance) => exists u, us = global_variable "SERVER_UUID" ++ u /\ t2 master u).
    pose (t4 := fun (master : N) (us : list utterance) => exists u, us = global_variable "GTID_MODE" ++ u /\ t3 master u).
    pose (t5 := fun (x : N * bytes) (us : list utterance) => exists id2 u, us = set_by (str "SET @MASTER_BINLOG_CHECKSUM = ?") (AString (snd x)) id2 ++ u /\ t4 (fst x) u).
    pose (t6 := fun (master : N) (us : list utterance) => exists al u, us = global_variable "BINLOG_CHECKSUM" ++ u /\ t5 (master, al) u).
    pose (t7 := fun (master : N) (us : list utterance) => exists id1 u, us = set_by (str "SET @MASTER_HEARTBEAT_PERIOD = ?") (AU64 (bo_heartbeat o mod 2 ^ 64)) id1 ++ u /\ t6 master u).
    assert (I1 : forall m, exists u, t1 m u) by (intros m; eexists; exists true; reflexivity).
    assert (I2 : forall m, exists u, t2 m u) by (intros m; destruct (I1 m) as [u Hu]; eexists; exists 0; eauto).
    assert (I3 : forall m, exists u, t3 m u) by (intros m; destruct (I2 m) as [u Hu]; eexists; eexists; eauto).
    assert (I4 : forall m, exists u, t4 m u) by (intros m; destruct (I3 m) as [u Hu]; eexists; eexists; eauto).
    assert (I5 : forall x, exists u, t5 x u) by (intros x; destruct (I4 (fst x)) as [u Hu]; eexists; exists 0; eauto).
    assert (I6 : forall m, exists u, t6 m u) by (intros m; destruct (I5 (m, [])) as [u Hu]; eexists; exists []; eauto).
    assert (I7 : forall m, exists u, t7 m u) by (intros m; destruct (I6 m) as [u Hu]; eexists; exists 0; eauto).
    destruct (I7 0) as [u7 J7]. eapply (call_chain _ _ t7 0 u7); [apply (call_required (non_null u32_from_text) "SERVER_ID")|exact J7| |].
    2: { intros master u1 u2 -> (id1 & v7 & -> & (al & v6 & -> & (id2 & v5 & -> & (v4 & -> & (v3 & -> & (id3 & v2 & -> & (on & ->))))))).
         cbn [said_by]. exists id1, id2, id3, al, master, on. reflexivity. }
    intros master. exists master. destruct (I6 master) as [u6 J6].
    eapply (call_chain _ _ (fun _ : unit => t6 master) tt u6); [apply (call_set (str "SET @MASTER_HEARTBEAT_PERIOD = ?") (AU64 (bo_heartbeat o mod 2 ^ 64))); reflexivity|exact J6| |intros _ u1 u2 [id1 ->] H; exists id1, u2; auto].
    intros _. exists tt. destruct (I5 (master, [])) as [u5 J5].
    eapply (call_chain _ _ (fun al => t5 (master, al)) [] u5); [apply (call_required (non_null string_from_text) "BINLOG_CHECKSUM")|exact J5| |intros al u1 u2 -> H; exists al, u2; auto].
    intros al. exists al. destruct (I4 master) as [u4 J4].
    eapply (call_chain _ _ (fun _ : unit => t4 master) tt u4); [apply (call_set (str "SET @MASTER_BINLOG_CHECKSUM = ?") (AString al)); reflexivity|exact J4| |intros _ u1 u2 [id1 ->] H; exists id1, u2; auto].
    intros _. exists tt. destruct (I3 master) as [u3 J3].
    eapply (call_chain _ _ (fun _ : unit => t3 master) tt u3); [apply (call_required (non_null string_from_text) "GTID_MODE")|exact J3| |intros _ u1 u2 -> H; exists u2; auto].
    intros mode. exists tt. destruct (I2 master) as [u2 J2].
    eapply (call_chain _ _ (fun _ : unit => t2 master) tt u2); [apply (call_required (non_null string_from_text) "SERVER_UUID")|exact J2| |intros _ v1 v2 -> H; exists v2; auto].
    intros server. exists tt. destruct (I1 master) as [u1 J1].
    eapply (call_chain _ _ (fun _ : unit => t1 master) tt u1); [apply (call_set (str "SET @SLAVE_UUID = ?") (AString uuid)); reflexivity|exact J1| |intros _ v1 v2 [id1 ->] H; exists id1, v2; auto].
    intros _. exists tt.
    eapply (call_chain _ _ (fun _ : unit => dump) tt); [apply (call_ask cap checks (QRequest (RqRegisterSlave slave [] [] [] 0 0 master))); [apply puts_register|cbv beta; ls]|exists true; reflexivity| |intros _ v1 v2 -> [on ->]; exists on; reflexivity].
    intros _. exists tt.
    eapply call_imp; [|apply (call_ask cap checks (QRequest (if beqb mode (str "ON") then expected_dump true slave o else expected_dump false slave (bo_set_pos (bo_pos o mod 2 ^ 32) o)))); [apply puts_dump|apply listens_start]].
    cbv beta. intros us ->. exists (beqb mode (str "ON")). reflexivity.
  Qed.
  Theorem call_api {A} (a : api A) : call (said_by sha1 sha256 cap a) (run_api sha1 sha256 crc checks a).
  Proof.
    destruct a; cbn [run_api];
      lazymatch goal with
      | |- call _ (conn_change_user _ _ _ _ _ _ _) => apply call_change_user
      | |- call _ (request_stream _ _ _ _) => apply call_stream
      | _ => idtac
      end.
    - apply call_send. puts. apply sr_quit.
    - apply call_ask; [puts; apply sr_init_db|ls].
    - apply call_ask; [puts; apply sr_create_db|ls].
    - apply call_ask; [puts; apply sr_drop_db|ls].
    - apply call_ask; [eapply puts_request; [reflexivity|]; apply sr_refresh|ls].
    - apply call_ask; [eapply puts_request; [reflexivity|]; apply sr_process_kill|ls].
    - apply call_ask; [puts; apply sr_reset_connection|ls].
    - apply call_ask; [apply puts_register|ls].
    - apply call_ask; [eapply puts_request; [reflexivity|]; apply sr_field_list|]. apply (listens_rounds (fun f => field_list_loop f [])). intros f. apply listens_fields.
    - apply call_ask; [puts; apply sr_statistics|ls].
    - apply call_ask; [puts; apply sr_debug|]. apply listens_bind; [ls|]. intros msg.
      apply (listens_cap (fun d => r <~ parse (read_debug_response (c_cap d)) msg ;; match r with DbEof _ => iret tt | DbErr err => ierr (error_of_err_packet err) end)). intros d. ls.
    - apply call_ask; [puts; apply sr_ping|]. ls.
    - apply call_ask; [eapply puts_request; [reflexivity|intros _; apply sr_set_option]|]. apply listens_bind; [ls|]. intros msg.
      apply (listens_cap (fun d => r <~ parse (read_set_option_response (c_cap d)) msg ;; match r with
        | SoEof _ => fun c => (Ok tt, set_cap c (if b then insert (c_cap c) MULTI_STATEMENTS else remove (c_cap c) MULTI_STATEMENTS)) | SoErr err => ierr (error_of_err_packet err) end)). intros d.
      apply listens_bind; [ls|]. intros [e|e]; [|ls]. apply listens_still. intros c. cbn [fst snd set_cap c_out c_ws c_cap]. rewrite formats_multi. auto.
    - apply call_ask; [puts; apply sr_process_info|apply listens_new_rs].
    - apply call_then; [apply (call_qry (str "SHOW MASTER LOGS"))|]. intros rs. apply (listens_rounds (fun f => on_rs (binlog_files_loop f []) rs)). intros f. apply listens_files.
    - apply call_get_var.
    - destruct global; (apply call_set; reflexivity).
    - apply call_then; [apply call_qry|]. intros rs. apply listens_var.
    - apply call_set. reflexivity.
    - apply call_ask; [puts; apply sr_query|]. apply (listens_rounds query_exec_loop), listens_query_loop.
    - apply call_qry.
    - apply call_prepare.
    - apply call_ask; [apply puts_execute|]. apply (listens_rounds stmt_exec_loop), listens_stmt_loop.
    - apply call_exec_close.
    - apply call_ask; [apply puts_execute|apply listens_new_rs].
    - apply call_send, puts_close.
    - apply call_listens, listens_source. assumption.
    - apply call_listens, listens_rows. apply listens_source. assumption.
    - apply call_listens, listens_first. apply listens_source. assumption.
    - apply call_listens, listens_rows. apply listens_source. assumption.
    - apply call_listens, listens_rows. apply listens_source. assumption.
    - destruct (rs_stmt_id rs) as [id|] eqn:E.
      + apply (call_fun _ _ _ _ (ibind (send_msg checks (write_stmt_close id) true) (fun u => iret (u, mk_res (rs_col_defs rs) (rs_completed rs) (rs_col_types rs) None)))).
        * intros c. unfold call_rs, rs_close, ibind. rewrite E. destruct (send_msg checks (write_stmt_close id) true c) as [[u|e|p|] c']; reflexivity.
        * apply (call_imp _ _ (fun us => us = ask1 (RqStmtClose (id mod 2 ^ 32)))); [cbn [said_by]; rewrite E; auto|]. apply call_ask; [apply puts_close|ls].
      + apply (call_fun _ _ _ _ (iret (tt, rs))); [intros c; unfold call_rs, rs_close; rewrite E; reflexivity|].
        apply (call_imp _ _ (fun us => us = [])); [cbn [said_by]; rewrite E; auto|]. apply call_listens. ls.
    - apply call_listens, listens_event.
  Qed.

  (** ** Applications *)
  Theorem talks_app {A} (m : app A) : forall st c, accepting (c_ws c) -> formats (c_cap c) = formats cap ->
    talks_at cap checks (app_said sha1 sha256 cap m) (app_begins sha1 sha256 cap m) st (run_app sha1 sha256 crc checks m) c.
  Proof.
    induction m as [A r|A a|A B m IH f IHf|A m IH]; intros st c Ha K; cbn [run_app].
    - apply talks_end; [reflexivity|reflexivity|exact Ha].
    - apply call_api; assumption.
    - eapply talks_bind; [apply IH; assumption| |].
      + intros us H. left. exact H.
      + intros a d us1 st1 _ H1 Ha' K'. eapply talks_imp; [| |apply IHf; [exact Ha'|congruence]].
        * intros us H. exists a, us1, us. auto.
        * intros us H. right. exists a, us1, us. auto.
    - destruct (IH st c Ha K) as (h & us & s & st' & cut & rest & D & R & E & X & O & C & Y). unfold talks_at, attempt.
      destruct (run_app sha1 sha256 crc checks m c) as [[a|e|p|] d]; cbn [fst snd] in *.
      + exists h, us, s, st', cut, rest. split; [exact D|]. split; [left; exact R|]. split; [exact E|]. split; [intros _; apply X; discriminate|]. split; [exact O|].
        split; [|exact Y]. destruct C as [C|(_ & C & _)]; [auto|discriminate C].
      + destruct e; cbn [fst snd] in *; exists h, us, s, st', cut, rest; (split; [exact D|]; split; [first [exact R|right; exact R]|]; split; [exact E|]; split; [first [intros _; apply X; discriminate|exact (fun H => False_ind _ (H eq_refl))]|]; split; [exact O|];
          split; [|exact Y]; destruct C as [C|(_ & C & _)]; [auto|discriminate C]).
      + exists h, us, s, st', cut, rest. split; [exact D|]. split; [exact R|]. split; [exact E|]. split; [intros _; apply X; discriminate|]. split; [exact O|].
        split; [|exact Y]. destruct C as [C|(C1 & C2 & u & w & more & C3 & C4)]; [auto|]. right. split; [exact C1|]. split; [congruence|]. exists u, w, more. auto.
      + exists h, us, s, st', cut, rest. split; [exact D|]. split; [exact R|]. split; [exact E|]. split; [intros _; apply X; discriminate|]. split; [exact O|].
        split; [|exact Y]. destruct C as [C|(_ & C & _)]; [auto|discriminate C].
  Qed.

  (** ** Logging in *)
  (** as [talks_at], but the capabilities may change, to those of [fm] *)
  Definition talks_to {A} (fm : bool * bool * bool) (F L : list utterance -> Prop) (st : option byte) (m : io A) (c : conn) : Prop :=
    exists h us s st' cut rest, dialogue cap st h us s st' /\ match fst (m c) with Ok _ => F us | _ => L us end /\
      arriving c = h ++ rest /\ (fst (m c) <> Err EIO -> arriving (snd (m c)) = rest) /\
      c_out (snd (m c)) = c_out c ++ s ++ cut /\
      (cut = [] \/ checks = true /\ fst (m c) = Panic PArith /\ exists u w more, L (us ++ [u]) /\ utters cap st' u w /\ w = cut ++ more) /\
      accepting (c_ws (snd (m c))) /\ (forall a, fst (m c) = Ok a -> formats (c_cap (snd (m c))) = fm).
  Lemma to_of {A} F L st (m : io A) c : talks_at cap checks F L st m c -> talks_to (formats (c_cap c)) F L st m c.
  Proof. intros (h & us & s & st' & cut & rest & D & R & E & X & O & C & Y & Z). exists h, us, s, st', cut, rest. auto 10. Qed.
  Lemma to_converses {A} fm F L (m : io A) c : talks_to fm F L None m c -> converses cap checks F L m c.
  Proof.
    intros (h & us & s & st' & cut & rest & D & R & E & X & O & C & _). unfold converses. destruct (m c) as [r c']. cbn [fst snd] in *.
    exists h, us, s, st', cut, rest. auto 8.
  Qed.
  Lemma to_bind {A B} fm (F1 L1 F L : list utterance -> Prop) st (m : io A) (f : A -> io B) c : talks_to fm F1 L1 st m c -> (forall us, L1 us -> L us) ->
    (forall a d us1 st1, F1 us1 -> accepting (c_ws d) -> formats (c_cap d) = fm ->
       talks_at cap checks (fun us => F (us1 ++ us)) (fun us => L (us1 ++ us)) st1 (f a) d) ->
    talks_to fm F L st (ibind m f) c.
  Proof.
    intros (h & us & s & st1 & cut & rest & D & R & E & X & O & C & Y & K) HL Hf. unfold ibind. destruct (m c) as [[a|e|p|] d] eqn:Em; cbn [fst snd] in *.
    - assert (cut = []) as -> by (destruct C as [C|(_ & C & _)]; [exact C|discriminate C]). rewrite app_nil_r in O. specialize (K a eq_refl).
      destruct (Hf a d us st1 R Y K) as (h2 & us2 & s2 & st2 & cut2 & rest2 & D2 & R2 & E2 & X2 & O2 & C2 & Y2 & K2).
      unfold talks_to. rewrite Em. exists (h ++ h2), (us ++ us2), (s ++ s2), st2, cut2, rest2.
      split; [eapply dialogue_app; eassumption|]. split; [exact R2|].
      split; [rewrite E, <- app_assoc; f_equal; rewrite <- X by discriminate; exact E2|]. split; [exact X2|].
      split; [rewrite O2, O, <- !app_assoc; reflexivity|]. split; [|split; [exact Y2|congruence]].
      destruct C2 as [C2|(C1 & C2 & u & w & more & C3 & C4)]; [auto|]. right. split; [exact C1|]. split; [exact C2|]. exists u, w, more. rewrite <- app_assoc. auto.
    - unfold talks_to. rewrite Em. exists h, us, s, st1, cut, rest. cbn [fst snd]. split; [exact D|]. split; [auto|]. split; [exact E|].
      split; [intros Z; apply X; congruence|]. split; [exact O|]. split; [|split; [exact Y|discriminate]]. destruct C as [C|(_ & C & _)]; [auto|discriminate C].
    - unfold talks_to. rewrite Em. exists h, us, s, st1, cut, rest. cbn [fst snd]. split; [exact D|]. split; [auto|]. split; [exact E|].
      split; [intros Z; apply X; congruence|]. split; [exact O|]. split; [|split; [exact Y|discriminate]].
      destruct C as [C|(C1 & C2 & u & w & more & C3 & C4)]; [auto|]. right. split; [exact C1|]. split; [congruence|]. exists u, w, more. auto.
    - unfold talks_to. rewrite Em. exists h, us, s, st1, cut, rest. cbn [fst snd]. split; [exact D|]. split; [auto|]. split; [exact E|].
      split; [intros Z; apply X; congruence|]. split; [exact O|]. split; [|split; [exact Y|discriminate]]. destruct C as [C|(_ & C & _)]; [auto|discriminate C].
  Qed.
  Lemma to_recv {B} fm (F L : list utterance -> Prop) st (f : bytes -> io B) c : accepting (c_ws c) -> L [] ->
    (forall msg d b, accepting (c_ws d) -> c_pkt_nr d = next_seq b -> c_cap d = c_cap c -> talks_to fm F L (Some b) (f msg) d) ->
    talks_to fm F L st (ibind recv_msg f) c.
  Proof.
    intros Ha HL Hf. destruct (recv_msg c) as [r d] eqn:E. pose proof (DmlProofs.recv_msg_reads _ _ _ E) as (S1 & S2 & S3 & S4).
    destruct (recv_msg_total c) as [(seqs & p & w & rest & c2 & E2 & W & D & D2)|(c2 & E2)].
    - destruct (recv_msg_spec seqs p w c rest W D) as (c3 & E3 & R3 & P3 & _). assert (c3 = d) as -> by congruence. assert (r = Ok p) as -> by congruence. clear E2 E3.
      destruct (Hf p d (last seqs x00)) as (h2 & us2 & s2 & st2 & cut2 & rest2 & D4 & R4 & E4 & X4 & O4 & C4 & Y4 & K4); [congruence|exact P3|congruence|].
      unfold talks_to. rewrite (ibind_ok _ _ _ _ _ E). exists (w ++ h2), us2, s2, st2, cut2, rest2.
      split; [change us2 with ([] ++ us2); change s2 with ([] ++ s2); eapply dialogue_app; [|exact D4]; change w with ([] ++ w); econstructor; [constructor|exact W]|].
      split; [exact R4|]. split; [unfold arriving in *; rewrite D, <- app_assoc; f_equal; congruence|]. split; [exact X4|]. split; [congruence|]. auto.
    - rewrite E in E2. injection E2 as -> <-. unfold talks_to. rewrite (ibind_err _ _ _ _ _ E). cbn [fst snd].
      exists [], [], [], st, [], (arriving c). split; [constructor|]. split; [exact HL|]. split; [reflexivity|]. split; [congruence|].
      split; [rewrite !app_nil_r; exact S2|]. split; [auto|]. split; [congruence|discriminate].
  Qed.
  Lemma to_lift {A B} fm (F L : list utterance -> Prop) st (r : res A) (f : A -> io B) c : L [] -> accepting (c_ws c) -> (forall a, r = Ok a -> talks_to fm F L st (f a) c) -> talks_to fm F L st (ibind (ilift r) f) c.
  Proof.
    intros HL Ha Hf. destruct r as [a|e|p|]; [exact (Hf a eq_refl)| | |];
      (exists [], [], [], st, [], (arriving c); cbn; rewrite !app_nil_r; split; [constructor|]; repeat split; auto; discriminate).
  Qed.
  Lemma to_set {B} fm F L st n (f : unit -> io B) c : talks_to fm F L st (f tt) (set_cap c (n (c_cap c))) -> talks_to fm F L st (ibind (fun c => (Ok tt, set_cap c (n (c_cap c)))) f) c.
  Proof. exact (fun H => H). Qed.
  Lemma bxor_same a : forall b r, bxor a b = Some r -> length a = length b.
  Proof.
    induction a as [|x a IH]; intros [|y b] r; cbn [bxor length]; try discriminate; [reflexivity|].
    destruct (bxor a b) as [q|] eqn:E; [|discriminate]. intros _. f_equal. eapply IH. exact E.
  Qed.
  Lemma answer_short pw m : auth_answer sha1 sha256 pw m -> (length m <= 32)%nat.
  Proof.
    intros [->|[(n & s1 & H & _)|(n & s1 & H & _)]]; [cbn; lia| |]; apply bxor_same in H; [rewrite sha1_20 in H|rewrite sha256_32 in H]; lia.
  Qed.
  Lemma talks_login_loop pw n : forall fuel p st c, accepting (c_ws c) -> knows pw p ->
    talks_at cap checks (answers pw) (answers pw) st (handshake_loop sha1 sha256 checks n fuel p) c.
  Proof.
    induction fuel as [|fuel IH]; intros p st c Ha Kp; cbn [handshake_loop]; [apply talks_end; auto using answers_nil|].
    apply talks_recv; [exact Ha|apply answers_nil|]. intros msg d b Ha' Pn _ _.
    apply talks_lift; [apply answers_nil|exact Ha'|]. intros [ok|e|sw|more] _.
    - apply (talks_set cap checks _ _ _ (fun c => set_status c (ok_status ok))); [intros x; auto|reflexivity|].
      eapply talks_imp; [| |apply talks_listens; [|exact Ha']]; cbv beta; [intros us ->; apply answers_nil|intros us ->; apply answers_nil|].
      apply listens_still. intros x. auto.
    - apply talks_end; auto using answers_nil.
    - apply talks_end; auto using answers_nil.
    - pose proof (auth_next_knows pw _ (am_data more) Kp) as X. destruct (auth_next sha1 sha256 p (am_data more)) as [r p1]. destruct X as [X1 X2].
      apply talks_lift; [apply answers_nil|exact Ha'|]. intros resp Er. destruct resp as [|x resp]; [apply (talks_lift cap checks _ _ _ (Ok tt)); [apply answers_nil|exact Ha'|]; intros _ _; apply IH; assumption|].
      apply talks_answer; [apply X2; exact Er|exact Ha'|exact Pn|]. intros st' d' Ha2. apply IH; [exact Ha2|exact X1].
  Qed.
  Lemma login_read user pw db plugin resp : auth_answer sha1 sha256 pw resp -> plugin = str "mysql_native_password" \/ plugin = str "caching_sha2_password" -> no_nul user -> no_nul db ->
    server_login (write_handshake_response (mk_hr (client_caps db) 0xffffff 33 user resp db plugin [])) =
      Some (mk_login (client_caps db) 0xffffff 33 user resp (match db with [] => None | _ => Some db end) (Some plugin) None, []).
  Proof.
    intros Hr Hp Hu Hd. apply answer_short in Hr. assert (Np : no_nul plugin).
    { destruct Hp as [-> | ->]; (vm_compute; repeat split; congruence || (intros X; repeat destruct X as [X|X]; try discriminate X; assumption)). }
    eapply eq_trans; [apply login_decodes|].
    - unfold login_ok, str_ok. cbn [hr_cap hr_max_packet hr_charset hr_username hr_auth hr_database hr_plugin hr_attrs].
      repeat (split; [first [reflexivity | assumption | unfold client_caps; destruct db; reflexivity | solve [split; lia] | solve [constructor]]|]). discriminate.
    - left. unfold client_caps. cbn [hr_cap]. destruct db; reflexivity.
    - cbn [hr_cap hr_max_packet hr_charset hr_username hr_auth hr_database hr_plugin hr_attrs]. unfold client_caps. destruct db; reflexivity.
  Qed.
  Lemma talks_login user pw db st c : accepting (c_ws c) -> c_cap c = 0 ->
    talks_to (formats (client_caps db)) (login_said sha1 sha256 user pw db) (fun us => us = [] \/ login_said sha1 sha256 user pw db us) st (handshake sha1 sha256 checks (mk_opts user pw db)) c.
  Proof.
    intros Ha C0. unfold handshake. apply to_recv; [exact Ha|auto|]. intros msg d b Ha' Pn Cd.
    apply to_lift; [auto|exact Ha'|]. intros hs _. apply (to_set _ _ _ _ login_caps). rewrite Cd, C0.
    apply to_lift; [auto|exact Ha'|]. intros p Ep. destruct (new_knows _ pw p Ep) as [Kp Np]. unfold gen_init_auth_resp. cbn [o_password o_database o_username].
    match goal with |- context [auth_next sha1 sha256 ?q ?i] => pose proof (auth_next_knows pw q i Kp) as X; destruct (auth_next sha1 sha256 q i) as [r p1] end. destruct X as [X1 X2].
    apply to_lift; [auto|exact Ha'|]. intros resp Er. specialize (X2 resp Er). clear r Er.
    set (msg' := write_handshake_response (mk_hr (client_caps db) 0xffffff 33 user resp db (hs_plugin hs) [])).
    assert (Go : talks_to (formats (client_caps db)) (login_said sha1 sha256 user pw db) (fun us => us = [] \/ login_said sha1 sha256 user pw db us) (Some b)
      (_ <~ send_msg checks msg' false ;; fun c => handshake_loop sha1 sha256 checks (client_caps db) (S (sched_len (c_rd c))) p1 c) (set_cap d (client_caps db))).
    { assert (Said : forall us, answers pw us -> login_said sha1 sha256 user pw db ([Replied msg'] ++ us)).
      { intros us (l & Hl & ->). exists msg', (hs_plugin hs), resp, l. split; [reflexivity|]. split; [exact Hl|]. split; [exact X2|]. split; [exact Np|]. intros Hu Hd. apply (login_read user pw); assumption. }
      apply (to_of _ _ _ _ (set_cap d (client_caps db))). eapply talks_bind; [apply (talks_reply cap checks msg' b (set_cap d (client_caps db))); [exact Ha'|exact Pn]| |].
      - cbv beta. intros us [-> | ->]; [auto|]. right. apply (Said []). apply answers_nil.
      - cbv beta. intros u d' us1 st1 _ -> Ha2 _.
        eapply talks_fun with (m' := handshake_loop sha1 sha256 checks (client_caps db) (S (sched_len (c_rd d'))) p1); [reflexivity|].
        eapply talks_imp; [| |apply (talks_login_loop pw); [exact Ha2|exact X1]]; [exact Said|]. intros us H. right. apply Said. exact H. }
    destruct db as [|x db].
    - apply (to_lift _ _ _ _ (Ok tt)); [auto|exact Ha'|]. intros _ _. exact Go.
    - apply (to_set _ _ _ _ (fun n => insert n CONNECT_WITH_DB)). exact Go.
  Qed.
End Calls.

(** ** Without authentication nothing is replied *)
Section Asking.
  Variable sha1 sha256 : bytes -> bytes.
  Variable cap : N.
  Definition asked (us : list utterance) : Prop := exists qs, us = map Asked qs.
  Lemma asked_app a b : asked a -> asked b -> asked (a ++ b).
  Proof. intros [q ->] [r ->]. exists (q ++ r). symmetry. apply map_app. Qed.
  Lemma asked_part a b : asked (a ++ b) -> asked a.
  Proof. intros [q E]. symmetry in E. apply map_eq_app in E. destruct E as (l1 & l2 & -> & <- & _). exists l1. reflexivity. Qed.
  Lemma asked_nil : asked []. Proof. exists []. reflexivity. Qed.
  Lemma asked_cons q us : asked us -> asked (Asked q :: us).
  Proof. intros [l ->]. exists (q :: l). reflexivity. Qed.
  Lemma said_asked {A} (a : api A) us : api_asks_only a -> said_by sha1 sha256 cap a us -> asked us.
  Proof.
    destruct a; cbn [said_by api_asks_only]; intros H S; try contradiction; try (subst us; repeat apply asked_cons; apply asked_nil).
    - destruct S as [i ->]. repeat apply asked_cons. apply asked_nil.
    - destruct S as [i ->]. repeat apply asked_cons. apply asked_nil.
    - subst us. destruct (rs_stmt_id rs); [apply asked_cons|]; apply asked_nil.
    - destruct S as (i1 & i2 & i3 & al & ma & on & ->). repeat apply asked_cons. apply asked_nil.
  Qed.
  Lemma app_asked {A} (m : app A) : asks_only m -> forall us, (app_said sha1 sha256 cap m us -> asked us) /\ (app_begins sha1 sha256 cap m us -> asked us).
  Proof.
    induction m as [A r|A a|A B m IH f IHf|A m IH]; cbn [asks_only app_said app_begins]; intros H us.
    - split; intros ->; apply asked_nil.
    - split; [apply said_asked; exact H|]. intros [more S]. apply (asked_part us more), (said_asked a); assumption.
    - destruct H as [H1 H2]. split.
      + intros (a & u1 & u2 & S1 & S2 & ->). apply asked_app; [exact (proj1 (IH H1 u1) S1)|exact (proj1 (IHf a (H2 a) u2) S2)].
      + intros [S|(a & u1 & u2 & S1 & S2 & ->)]; [exact (proj2 (IH H1 us) S)|]. apply asked_app; [exact (proj1 (IH H1 u1) S1)|exact (proj2 (IHf a (H2 a) u2) S2)].
    - split; [intros [S|S]; [exact (proj1 (IH H us) S)|exact (proj2 (IH H us) S)]|exact (proj2 (IH H us))].
  Qed.
End Asking.
