(** * C59, C60: calls given up while they wait; transports that stop taking output *)
From Coq Require Import Strings.String.
From Coq Require Import List NArith ZArith Lia Arith Bool.
From Verif Require Import Model.Base Model.Conn Model.Flags Model.Packet Model.Auth Model.Cmd Model.Col Model.Stmt Model.Extract
  Model.Session Model.Event Model.Stream Spec.Nums Spec.Wire Spec.Framing Spec.Session Spec.Values Spec.ResultSets Spec.BinlogSpec Spec.StreamSpec
  Spec.Programs Spec.Abandon Spec.Failures Proofs.WireLemmas Proofs.ConnProofs Proofs.CommandProofs Proofs.ScheduleProofs Proofs.FailureProofs Proofs.AbandonProofs.
Import ListNotations.
Open Scope N_scope.

(** ** C59 *)
(** A wait for the next event is given up when only whole messages had arrived (none, or events that are not
    reported): asking again gives the result the call would have had, and leaves the connection as it would
    have left it. *)
Theorem C59_events : forall crc s c got c' ms,
  abandoned (next_event crc s) c got c' -> messages_wire ms got -> accepting (c_ws c) ->
  fst (next_event crc s c') = fst (next_event crc s c) /\ alike (snd (next_event crc s c')) (snd (next_event crc s c)) /\
  (fst (next_event crc s c) = Err EIO \/ arriving (snd (next_event crc s c')) = arriving (snd (next_event crc s c))).
Proof.
  intros crc s c got c' ms Ab W Ac. destruct (event_between crc s c got c' ms Ab W Ac) as [(H1 & H2 & H3)|(H1 & _ & H2)].
  - rewrite app_nil_r in H3. auto.
  - destruct (H2 eq_refl) as [H3 H4]. split; [congruence|]. auto.
Qed.
Print Assumptions C59_events.
(** A wait for the next row of a result set, in either protocol, mapped or not *)
Theorem C59_rows : forall A (next : rs_io (option A)) rs c c', row_source next ->
  abandoned (call_rs next rs) c [] c' -> accepting (c_ws c) ->
  fst (call_rs next rs c') = fst (call_rs next rs c) /\ alike (snd (call_rs next rs c')) (snd (call_rs next rs c)) /\
  (fst (call_rs next rs c) = Err EIO \/ arriving (snd (call_rs next rs c')) = arriving (snd (call_rs next rs c))).
Proof.
  intros A next rs c c' Src Ab Ac. destruct (rows_between next rs c c' Src Ab Ac) as [(H1 & H2 & H3)|(H1 & _ & H2)].
  - rewrite app_nil_r in H3. auto.
  - destruct (H2 eq_refl) as [H3 H4]. split; [congruence|]. auto.
Qed.
Print Assumptions C59_rows.
(** Otherwise exactly what had arrived is lost: the next call starts in the middle of a message *)
Theorem C59_lost : forall A (m : io A) c got c', abandoned m c got c' -> arriving c = got ++ arriving c'.
Proof. intros A m c got c'. apply abandoned_bytes. Qed.
Print Assumptions C59_lost.
(** Finding: for every row there is a cell content that makes the client report that row although the server
    never sent it.  The server sends one row with this content; a client that waits gets it, one that gives up
    in the middle and asks again gets the forged row. *)
Theorem C59_forged_row_refuted : forall defs stmt forged s, defs_ok defs -> length forged = length defs ->
  Forall (fun c => match c with Some s => N.of_nat (length s) < 2 ^ 64 | None => True end) forged ->
  N.of_nat (length (text_row forged)) < 2 ^ 23 -> N.of_nat (length defs) < 2 ^ 16 ->
  exists genuine a b, length genuine = length defs /\ genuine <> forged /\ message_wire [s] (text_row genuine) (a ++ b) /\
    forall c c' d, abandoned (call_rs (next_row text_rows) (rs_new defs stmt)) c a c' -> arriving c = (a ++ b) ++ d ->
      (exists x, next_row text_rows (rs_new defs stmt) c = (Ok (Some genuine), rs_new defs stmt, x)) /\
      (exists x, next_row text_rows (rs_new defs stmt) c' = (Ok (Some forged), rs_new defs stmt, x)).
Proof.
  intros defs stmt forged s Hd Hf Hc Lf Ld. destruct (forged_row defs stmt forged s x00 Hd Hf Hc Lf Ld) as (a & b & W & K).
  exists (Some (carrier x00 forged) :: repeat None (length defs - 1)), a, b. split; [|split; [|auto]].
  - cbn [length]. rewrite repeat_length. destruct Hd as (Hn & _). destruct defs; [congruence|cbn; lia].
  - intros E. apply (f_equal (fun r => length (text_row r))) in E. unfold text_row at 1 in E. cbn [map concat text_cell] in E. unfold wlstr in E.
    rewrite !app_length in E. assert (X : (length (text_row forged) < length (carrier x00 forged))%nat) by (unfold carrier; rewrite app_length, wle_length; cbn [length]; lia). lia.
Qed.
Print Assumptions C59_forged_row_refuted.
(** Finding: the same for events.  The server sends one event that is not reported at all (a Rows_query event
    carries the text of the statement); a client that gives up in the middle and asks again gets the forged one. *)
Theorem C59_forged_event_refuted : forall crc s e v n, (forall bs, crc bs < 2 ^ 32) -> s_completed s = false ->
  let sum := p_checksum (s_pv4 s) in
  log_event_ok sum e -> parsed sum e = Some v -> N.of_nat (length (event_message crc sum e)) < 2 ^ 23 ->
  exists host a b, log_event_ok sum host /\ parsed sum host = None /\ message_wire [n] (event_message crc sum host) (a ++ b) /\
    forall c c' d, abandoned (next_event crc s) c a c' -> arriving c = (a ++ b) ++ d ->
      exists x, next_event crc s c' = (Ok (Some v), x).
Proof.
  intros crc s e v n Hcrc Ho sum He Hv Le. destruct (forged_event crc s e v n x01 Hcrc Ho He Hv Le) as (H1 & H2 & a & b & H3 & H4).
  eexists _, a, b. split; [exact H1|]. split; [exact H2|]. split; [exact H3|exact H4].
Qed.
Print Assumptions C59_forged_event_refuted.
(** A command given up while it is sent leaves a proper beginning of its packet on the wire *)
Theorem C59_unsent : forall checks msg c put c', N.of_nat (length msg) < full -> abandoned_sending (send_msg checks msg true) c put c' ->
  exists w rest, message_wire [x00] msg w /\ w = put ++ rest /\ rest <> [] /\ c_out c' = c_out c ++ put /\ c_rd c' = c_rd c.
Proof.
  intros checks msg c put c' L Ab. destruct (send_cut checks msg c put c' L Ab) as (rest & H1 & H2 & H3 & H4 & _).
  exists (put ++ rest), rest. split; [rewrite H2; apply small_wire; exact L|]. auto.
Qed.
Print Assumptions C59_unsent.
(** Finding: the next command is then taken for the rest of the first one.  If it has the right length, the
    server sees one message that is neither of the two, and the client does not notice. *)
Theorem C59_swallowed_refuted : forall checks m1 m2 c put c', N.of_nat (length m1) < full -> N.of_nat (length m2) < full ->
  abandoned_sending (send_msg checks m1 true) c put c' -> accepting (c_ws c') -> (4 <= length put)%nat ->
  (length put + length m2 = length m1)%nat ->
  exists x w2 c2, message_wire [x00] m2 w2 /\ send_msg checks m2 true c' = (Ok tt, c2) /\ c_out c2 = c_out c ++ x /\
    message_wire [x00] (skipn 4 put ++ w2) x.
Proof.
  intros checks m1 m2 c put c' L1 L2 Ab Ac Lp Le. destruct (swallowed checks m1 m2 c put c' L1 L2 Ab Ac Lp) as (x & c2 & H1 & H2 & H3); [lia|].
  exists x, (wle 3 (N.of_nat (length m2)) ++ x00 :: m2), c2. split; [apply small_wire; exact L2|]. auto.
Qed.
Print Assumptions C59_swallowed_refuted.

(** *** Examples *)
(** given up before the first byte, after an event that is not reported, and inside an event *)
Definition wait_stream : binlog_stream := mk_stream (mk_parser [] false) false false false.
Definition xid_event : log_event := mk_log_event 1 16 2 331 0 (wle 8 77).
Definition skipped_event : log_event := mk_log_event 1 29 2 350 0 (str "x").
Definition packed (m : bytes) : bytes := wle 3 (N.of_nat (length m)) ++ x01 :: m.
Definition wait_conn (got rest : bytes) : conn := mk_conn [RPending; RData got; RPending; RData rest] [] [] 0x200 0 0.
Lemma packed_wire m : N.of_nat (length m) < full -> message_wire [x01] m (packed m).
Proof. apply small_wire. Qed.
Example C59_example_events : let skipped := packed (event_message (fun _ => 0) false skipped_event) in
  let xid := packed (event_message (fun _ => 0) false xid_event) in
  (exists c', abandoned (next_event (fun _ => 0) wait_stream) (wait_conn skipped xid) skipped c' /\ messages_wire [event_message (fun _ => 0) false skipped_event] skipped /\
     exists v x, next_event (fun _ => 0) wait_stream c' = (Ok (Some v), x) /\ ev_kind v = KXid) /\
  (exists c', abandoned (next_event (fun _ => 0) wait_stream) (wait_conn (firstn 10 xid) (skipn 10 xid)) (firstn 10 xid) c' /\
     exists x, next_event (fun _ => 0) wait_stream c' = (Err EPacket, x)).
Proof.
  split; eexists; (split; [|]).
  - eexists [RPending; RData _], [RData _], _. split; [constructor; [left; reflexivity|constructor; [right; eexists _, _; vm_compute; reflexivity|constructor]]|]. split; [reflexivity|]. split; [symmetry; apply app_nil_r|]. split; [vm_compute; reflexivity|reflexivity].
  - split; [|eexists _, _; split; [vm_compute; reflexivity|reflexivity]]. rewrite <- (app_nil_r (packed _)). apply (msw_cons _ _ _ _ [x01]); [apply packed_wire; reflexivity|constructor].
  - eexists [RPending; RData _], [RData _], _. split; [constructor; [left; reflexivity|constructor; [right; eexists _, _; vm_compute; reflexivity|constructor]]|]. split; [reflexivity|]. split; [symmetry; apply app_nil_r|]. split; [vm_compute; reflexivity|reflexivity].
  - eexists. vm_compute. reflexivity.
Qed.
(** a table of two columns; the first cell of the only row carries the row (admin, NULL) *)
Definition two_columns : list column_def := [mk_cd (str "def") [] [] [] (str "a") [] 63 20 TVarString 0 0 []; mk_cd (str "def") [] [] [] (str "b") [] 63 20 TVarString 0 0 []].
Definition example_forged : list (option bytes) := [Some (str "admin"); None].
Definition example_genuine : list (option bytes) := [Some (carrier x07 example_forged); None].
Example C59_example_forged : defs_ok two_columns /\ length example_forged = length two_columns /\
  let w := packed (text_row example_genuine) in
  (exists c', abandoned (call_rs (next_row text_rows) (rs_new two_columns None)) (wait_conn (firstn 5 w) (skipn 5 w)) (firstn 5 w) c' /\
     fst (fst (next_row text_rows (rs_new two_columns None) c')) = Ok (Some example_forged)) /\
  fst (fst (next_row text_rows (rs_new two_columns None) (wait_conn (firstn 5 w) (skipn 5 w)))) = Ok (Some example_genuine).
Proof.
  split; [|split; [reflexivity|split; [eexists; split|vm_compute; reflexivity]]].
  - split; [discriminate|]. split; [reflexivity|]. repeat constructor.
  - eexists [RPending; RData _], [RData _], _. split; [constructor; [left; reflexivity|constructor; [right; eexists _, _; vm_compute; reflexivity|constructor]]|]. split; [reflexivity|]. split; [symmetry; apply app_nil_r|]. split; [vm_compute; reflexivity|reflexivity].
  - vm_compute. reflexivity.
Qed.
(** a query of 22 bytes is given up after 10 bytes of its packet; the next query has 12 bytes *)
Definition sending (ws : list wpoll) : conn := mk_conn [] ws [] 0x200 0 0.
Example C59_example_swallowed : let m1 := x03 :: str "DELETE FROM t WHERE 1" in let m2 := x03 :: str "SELECT 1+10" in
  exists put c', abandoned_sending (send_msg true m1 true) (sending [WAccept 3; WPending; WAccept 1; WAccept 6; WPending; WAccept 2]) put c' /\ accepting (c_ws c') /\
    length put = 10%nat /\ (length put + length m2 = length m1)%nat.
Proof.
  eexists _, _. split; [eexists [WAccept 3; WPending; WAccept 1; WAccept 6], [WAccept 2], _; split; [cbn; repeat split; discriminate|]; split; [reflexivity|];
    split; [vm_compute; reflexivity|]; split; [reflexivity|reflexivity]|].
  split; [cbn; repeat split; discriminate|]. split; reflexivity.
Qed.

(** ** C60 *)
(** The transport takes output for a while and then fails.  Then a program, on any input, reports an I/O error
    or ends with the very result it has on a transport that takes everything.  In both cases the bytes sent are
    the beginning of the bytes it would have sent, and if no error is reported they are all of them, but for
    the end of one message that closes a statement. *)
Theorem C60_write_failure : forall sha1 sha256 crc checks A (m : io A) c ws,
  program sha1 sha256 crc checks m -> fails_after ws c ->
  exists unsent, c_out (snd (m (healthy c))) = c_out (snd (m c)) ++ unsent /\
    (fst (m c) = Err EIO \/
     fst (m c) = fst (m (healthy c)) /\ (unsent = [] \/ exists id sent, close_packet id (sent ++ unsent))).
Proof.
  intros sha1 sha256 crc checks A m c ws P F. destruct (program_faithful sha1 sha256 crc checks m P) as [_ H].
  destruct (H c (healthy c)) as [(H1 & [(_ & H2)|(_ & _ & _ & _ & _ & id & sent & lost & H2 & H3)])|(H1 & _ & more & H2)].
  - left. split; [exists ws; exact F|reflexivity].
  - exists []. split; [rewrite H2, app_nil_r; reflexivity|]. auto.
  - exists lost. split; [exact H2|]. right. eauto 10.
  - exists more. auto.
Qed.
Print Assumptions C60_write_failure.
(** Finding: executing a statement and closing it reports success although the closing could not be sent; so do
    the calls that set variables, which work this way *)
Theorem C60_unnoticed_refuted : forall checks ps params c c1 f1 f2 rest, stmt_exec checks ps params c = (Ok tt, c1) ->
  refuses f1 -> c_ws c1 = f1 :: f2 :: rest -> refuses f2 ->
  exists c', stmt_exec_close checks ps params c = (Ok tt, c') /\ c_out c' = c_out c1 /\
    exists w, close_packet (ps_stmt_id ps mod 2 ^ 32) w /\ c_out (snd (stmt_close checks ps (healthy c1))) = c_out c1 ++ w.
Proof.
  intros checks ps params c c1 f1 f2 rest E R1 W R2. unfold stmt_exec_close. cbv zeta. rewrite E.
  destruct (close_refused checks ps c1) as (d & D & O); [exists f1, (f2 :: rest); auto|]. rewrite D. exists d. split; [reflexivity|]. split; [exact O|].
  destruct (close_sends checks (ps_stmt_id ps) (healthy c1) eq_refl) as (w & c' & S & O' & C). exists w. split; [exact C|]. unfold stmt_close. rewrite S. exact O'.
Qed.
Print Assumptions C60_unnoticed_refuted.

(** *** Examples: a ping and a query; the transport fails after every possible number of bytes *)
Definition two_answers : bytes := [x07; x00; x00; x01; x00; x00; x00; x02; x00; x00; x00; x07; x00; x00; x01; x00; x00; x00; x02; x00; x00; x00].
Definition failing (n : nat) : conn := mk_conn [RData two_answers] (repeat (WAccept 1) n ++ [WFail; WFail; WFail]) [] 0x200 2 0.
Definition ping_query : io unit := _ <~ conn_ping true ;; query_exec true [x73].
Example C60_example : forall sha1 sha256 crc, program sha1 sha256 crc true ping_query /\
  forall n, (n < 11)%nat -> fails_after (repeat (WAccept 1) n) (failing n) /\
    fst (ping_query (failing n)) = Err EIO /\ length (c_out (snd (ping_query (failing n)))) = n /\
    length (c_out (snd (ping_query (healthy (failing n))))) = 11%nat.
Proof.
  intros. split; [apply pg_bind; [apply pg_ping|intros; apply pg_exec]|]. intros n H. split.
  - split; [clear H; induction n as [|n IH]; cbn; auto|]. exists WFail, WFail, WFail, []. unfold refuses. auto 10.
  - do 11 (destruct n as [|n]; [vm_compute; auto|]). lia.
Qed.
(** a statement is executed; its closing does not get through *)
Definition exec_failing : conn := mk_conn [RData two_answers] [WAccept 3; WAccept 1; WAccept 10; WFail; WFail; WFail] [] 0x200 2 0.
Definition a_stmt : prepared_stmt := mk_ps 7 [] [] 0.
Example C60_example_unnoticed : exists c1, stmt_exec true a_stmt [] exec_failing = (Ok tt, c1) /\
  c_ws c1 = [WFail; WFail; WFail] /\ fst (stmt_exec_close true a_stmt [] exec_failing) = Ok tt /\
  exists ws, fails_after ws exec_failing.
Proof.
  eexists. split; [vm_compute; reflexivity|]. split; [reflexivity|]. split; [vm_compute; reflexivity|].
  exists [WAccept 3; WAccept 1; WAccept 10]. split; [cbn; repeat split; discriminate|]. exists WFail, WFail, WFail, []. unfold refuses. auto 10.
Qed.
