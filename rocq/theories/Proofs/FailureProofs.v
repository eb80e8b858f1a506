(** * Programs on a transport that stops taking output *)
From Coq Require Import Strings.String.
From Coq Require Import List NArith ZArith Lia Arith Bool.
From Verif Require Import Model.Base Model.BytesParser Model.Conn Model.Flags Model.Packet Model.Auth Model.Cmd Model.Col Model.Stmt Model.Extract
  Model.Session Model.Event Model.Stream Spec.Nums Spec.Framing Spec.Programs Spec.Failures Proofs.BytesParserProofs Proofs.ConnProofs Proofs.ScheduleProofs.
Import ListNotations.
Open Scope N_scope.

(** ** Two runs, the first on the failing transport, the second on a healthy one *)
Definition grows {A} (m : io A) : Prop := forall c, exists more, c_out (snd (m c)) = c_out c ++ more.
Record rel : Type := mk_rel { rl :> conn -> conn -> Prop; left_over : list wpoll -> Prop }.
Definition refusing1 (s : list wpoll) : Prop := exists f rest, refuses f /\ s = f :: rest.
Definition refusing2 (s : list wpoll) : Prop := exists f1 f2 rest, refuses f1 /\ refuses f2 /\ s = f1 :: f2 :: rest.
Definition intact : rel := mk_rel (fun c1 c2 => (exists ws, fails_after ws c1) /\ c2 = healthy c1) refusing2.
Definition missing : rel := mk_rel (fun c1 c2 =>
  c_rd c2 = c_rd c1 /\ c_cap c2 = c_cap c1 /\ c_status c2 = c_status c1 /\ c_ws c2 = [] /\ refusing2 (c_ws c1) /\
  exists id sent lost, c_out c2 = c_out c1 ++ lost /\ close_packet id (sent ++ lost)) refusing1.
Definition either : rel := mk_rel (fun c1 c2 => intact c1 c2 \/ missing c1 c2) (fun _ => True).
Definition torn {A} (R : rel) (x y : res A * conn) : Prop :=
  fst x = Err EIO /\ left_over R (c_ws (snd x)) /\ exists more, c_out (snd y) = c_out (snd x) ++ more.
Definition same {A} (R : rel) (x y : res A * conn) : Prop := (fst x = fst y /\ R (snd x) (snd y)) \/ torn R x y.
Definition parallel {A} (R : rel) (m : io A) : Prop := forall c1 c2, R c1 c2 -> same R (m c1) (m c2).
Definition faithful {A} (R : rel) (m : io A) : Prop := grows m /\ parallel R m.

Lemma grows_bind {A B} (m : io A) (f : A -> io B) : grows m -> (forall a, grows (f a)) -> grows (ibind m f).
Proof.
  intros H K c. specialize (H c). unfold ibind. destruct (m c) as [[a|e|p|] d]; cbn [snd] in *; try exact H.
  destruct H as (x & Hx). destruct (K a d) as (y & Hy). exists (x ++ y). rewrite Hy, Hx, app_assoc. reflexivity.
Qed.
Lemma grows_still {A} (m : io A) : (forall c, c_out (snd (m c)) = c_out c) -> grows m.
Proof. intros H c. exists []. rewrite H, app_nil_r. reflexivity. Qed.
Lemma parallel_bind {A B} R (m : io A) (f : A -> io B) : parallel R m -> (forall a, faithful R (f a)) -> parallel R (ibind m f).
Proof.
  intros H K c1 c2 F. specialize (H c1 c2 F). unfold ibind. destruct (m c1) as [r1 d1], (m c2) as [r2 d2].
  destruct H as [(H1 & H2)|(H1 & H2 & (x & H3))]; cbn [fst snd] in *.
  - subst r2. destruct r1 as [a|e|p|]; try (left; auto; fail). apply (K a). exact H2.
  - subst r1. right. split; [reflexivity|]. split; [exact H2|]. destruct r2 as [a|e|p|]; try (exists x; exact H3).
    destruct (proj1 (K a) d2) as (y & Hy). exists (x ++ y). cbn [snd]. rewrite Hy, H3, app_assoc. reflexivity.
Qed.
Lemma faithful_bind {A B} R (m : io A) (f : A -> io B) : faithful R m -> (forall a, faithful R (f a)) -> faithful R (ibind m f).
Proof. intros [H1 H2] K. split; [apply grows_bind; [exact H1|intros; apply K]|apply parallel_bind; assumption]. Qed.
Lemma faithful_lift {A} R (r : res A) : faithful R (ilift r).
Proof. split; [apply grows_still; reflexivity|]. intros c1 c2 F. left. auto. Qed.
Lemma faithful_ret {A} R (a : A) : faithful R (iret a). Proof. apply (faithful_lift R (Ok a)). Qed.
Lemma faithful_err {A} R e : faithful R (ierr (A := A) e). Proof. apply (faithful_lift R (Err e)). Qed.
Lemma faithful_panic {A} R e : faithful R (ipanic (A := A) e). Proof. apply (faithful_lift R (Panic e)). Qed.
Lemma faithful_fun {A} R (m m' : io A) : (forall c, m c = m' c) -> faithful R m' -> faithful R m.
Proof. intros E [G P]. split; [intros c; rewrite E; apply G|]. intros c1 c2 F. rewrite !E. apply P. exact F. Qed.

(** ** Sending *)
Lemma write_fails ws f rest : accepting ws -> refuses f -> forall bs,
  (exists ws', accepting ws' /\ write_all bs (ws ++ f :: rest) = (Ok tt, bs, ws' ++ f :: rest)) \/
  (exists a b, bs = a ++ b /\ write_all bs (ws ++ f :: rest) = (Err EIO, a, rest)).
Proof.
  intros Ac Hf. induction ws as [|[|n|] ws IH]; intros bs; cbn [app].
  - destruct bs as [|b bs]; [left; exists []; split; [exact I|reflexivity]|]. right. exists [], (b :: bs). split; [reflexivity|]. destruct Hf as [-> | ->]; reflexivity.
  - destruct bs as [|b bs]; [left; exists (WPending :: ws); split; [exact Ac|reflexivity]|]. cbn [write_all]. destruct (IH Ac (b :: bs)) as [(ws' & A' & E)|(x & y & E1 & E)]; [left|right]; eauto.
  - destruct Ac as [Hn Ac]. destruct bs as [|b bs]; [left; exists (WAccept n :: ws); split; [split; assumption|reflexivity]|].
    destruct n as [|n]; [congruence|]. cbn [write_all]. destruct (IH Ac (skipn (S n) (b :: bs))) as [(ws' & A' & E)|(x & y & E1 & E)].
    + left. exists ws'. split; [exact A'|]. rewrite E. rewrite (firstn_skipn (S n) (b :: bs)). reflexivity.
    + right. exists (firstn (S n) (b :: bs) ++ x), y. split; [rewrite <- app_assoc, <- E1, (firstn_skipn (S n) (b :: bs)); reflexivity|]. rewrite E. reflexivity.
  - destruct Ac.
Qed.
Lemma grows_write bs : grows (io_write_all bs).
Proof. intros c. unfold io_write_all. destruct (write_all bs (c_ws c)) as [[r out] s]. exists out. reflexivity. Qed.
Lemma intact_write bs : parallel intact (io_write_all bs).
Proof.
  intros c1 c2 [(ws & Ac & f1 & f2 & f3 & rest & R1 & R2 & R3 & E) ->]. unfold io_write_all. cbn [healthy c_ws c_out].
  assert (H0 : write_all bs [] = (Ok tt, bs, [])) by (destruct bs; reflexivity). rewrite E, H0.
  destruct (write_fails ws f1 (f2 :: f3 :: rest) Ac R1 bs) as [(ws' & A' & W)|(a & b & Eb & W)]; rewrite W.
  - left. split; [reflexivity|]. split; [|reflexivity]. exists ws'. split; [exact A'|]. exists f1, f2, f3, rest. auto.
  - right. split; [reflexivity|]. split; [exists f2, f3, rest; auto|]. exists b. cbn. rewrite Eb, app_assoc. reflexivity.
Qed.
Lemma intact_nr {A} (f : N -> io A) : (forall n, faithful intact (f n)) -> faithful intact (fun c => f (c_pkt_nr c) c).
Proof.
  intros H. split; [intros c; apply H|]. intros c1 c2 F. pose proof (proj2 F) as E. rewrite E. cbn [healthy c_pkt_nr]. rewrite <- E. apply H. exact F.
Qed.
Lemma intact_set (g : conn -> conn) : (forall c, c_ws (g c) = c_ws c) -> (forall c, c_out (g c) = c_out c) -> (forall c, g (healthy c) = healthy (g c)) ->
  faithful intact (fun c => (Ok tt, g c)).
Proof.
  intros H1 H2 H3. split; [apply grows_still; exact H2|]. intros c1 c2 [(ws & Ac & f1 & f2 & f3 & rest & R1 & R2 & R3 & E) ->].
  left. split; [reflexivity|]. split; [|apply H3]. exists ws. split; [exact Ac|]. exists f1, f2, f3, rest. cbn [snd]. rewrite H1. auto.
Qed.
Lemma intact_inc checks : faithful intact (inc_pkt_nr checks).
Proof.
  unfold inc_pkt_nr. apply (intact_nr (fun n c => if n =? 255 then if checks then (Panic PArith, c) else (Ok tt, set_pkt_nr c 0) else (Ok tt, set_pkt_nr c (n + 1)))).
  intros n. destruct (n =? 255); [destruct checks|]; [apply (faithful_panic intact PArith)|apply (intact_set (fun c => set_pkt_nr c 0)); reflexivity|apply (intact_set (fun c => set_pkt_nr c (n + 1))); reflexivity].
Qed.
Lemma intact_packet checks p : faithful intact (send_packet checks p).
Proof.
  assert (W : forall bs, faithful intact (io_write_all bs)) by (intros; split; [apply grows_write|apply intact_write]).
  unfold send_packet. cbv zeta. apply faithful_bind; [apply W|]. intros _.
  apply faithful_bind; [apply (intact_nr (fun n => io_write_all [n2b n])); intros; apply W|]. intros _.
  apply faithful_bind; [apply W|]. intros _. apply intact_inc.
Qed.
Lemma intact_send checks msg reset : faithful intact (send_msg checks msg reset).
Proof.
  unfold send_msg. apply faithful_bind; [destruct reset; [apply (intact_set (fun c => set_pkt_nr c 0)); reflexivity|apply faithful_ret]|]. intros _.
  generalize (S (length msg)). intros fuel. revert msg. induction fuel as [|fuel IH]; intros msg; cbn [send_loop]; [apply faithful_lift|].
  destruct (max_payload <=? blen msg); [|apply intact_packet]. apply faithful_bind; [apply intact_packet|]. intros _. apply IH.
Qed.
Lemma packet_refused checks p c f rest : refuses f -> c_ws c = f :: rest -> send_packet checks p c = (Err EIO, set_wr c rest (c_out c ++ [])).
Proof. intros Hf E. unfold send_packet, ibind at 1, io_write_all at 1. rewrite E. destruct Hf as [-> | ->]; reflexivity. Qed.
Lemma send_refused checks msg reset c f rest : refuses f -> c_ws c = f :: rest ->
  exists c', send_msg checks msg reset c = (Err EIO, c') /\ c_ws c' = rest /\ c_out c' = c_out c.
Proof.
  intros Hf E. unfold send_msg.
  assert (K : forall d, c_ws d = f :: rest -> c_out d = c_out c -> exists c', send_loop checks (S (length msg)) msg d = (Err EIO, c') /\ c_ws c' = rest /\ c_out c' = c_out c).
  { intros d Ed Od. cbn [send_loop]. unfold ibind. destruct (max_payload <=? blen msg); rewrite (packet_refused _ _ d f rest Hf Ed);
      (eexists; split; [reflexivity|]; cbn; rewrite app_nil_r; auto). }
  unfold ibind. destruct reset; apply K; cbn; auto.
Qed.
Lemma missing_send checks msg reset : faithful missing (send_msg checks msg reset).
Proof.
  split; [apply intact_send|]. intros c1 c2 (E1 & E2 & E3 & E4 & (f1 & f2 & rest & R1 & R2 & E5) & id & sent & lost & E6 & _).
  destruct (send_refused checks msg reset c1 f1 (f2 :: rest) R1 E5) as (d & Ed & Wd & Od). right. rewrite Ed. split; [reflexivity|]. cbn [snd].
  split; [exists f2, rest; auto|]. destruct (proj1 (intact_send checks msg reset) c2) as (more & G). exists (lost ++ more). rewrite G, E6, Od, app_assoc. reflexivity.
Qed.

(** ** What the relations have in common *)
Record good (R : rel) : Prop := {
  g_rd : forall c1 c2, R c1 c2 -> c_rd c2 = c_rd c1;
  g_cap : forall c1 c2, R c1 c2 -> c_cap c2 = c_cap c1;
  g_set_rd : forall c1 c2 s, R c1 c2 -> R (set_rd c1 s) (set_rd c2 s);
  g_set_nr : forall c1 c2 n, R c1 c2 -> R (set_pkt_nr c1 n) (set_pkt_nr c2 n);
  g_set_cap : forall c1 c2 n, R c1 c2 -> R (set_cap c1 n) (set_cap c2 n);
  g_set_status : forall c1 c2 n, R c1 c2 -> R (set_status c1 n) (set_status c2 n);
  g_send : forall checks msg reset, faithful R (send_msg checks msg reset) }.
Lemma good_intact : good intact.
Proof.
  split; try (intros c1 c2 [_ ->]; reflexivity); try (intros c1 c2 x [H ->]; split; [exact H|reflexivity]). apply intact_send.
Qed.
Lemma good_missing : good missing.
Proof.
  split; try (intros c1 c2 (E1 & E2 & H); assumption); try (intros c1 c2 x (E1 & E2 & E3 & H); split; [cbn; auto|split; [cbn; auto|split; [cbn; auto|exact H]]]).
  apply missing_send.
Qed.
Lemma parallel_either {A} (m : io A) : parallel intact m -> parallel missing m -> parallel either m.
Proof.
  intros H K c1 c2 [F|F]; [destruct (H _ _ F) as [[E G]|T]|destruct (K _ _ F) as [[E G]|T]]; try (right; destruct T as (T1 & _ & T2); split; [exact T1|split; [exact I|exact T2]]); left; split; try exact E; [left|right]; exact G.
Qed.
Lemma good_either : good either.
Proof.
  destruct good_intact, good_missing. split; try (intros c1 c2 [H|H]; auto; fail); try (intros c1 c2 x [H|H]; [left|right]; auto; fail).
  intros checks msg reset. split; [apply g_send0|]. apply parallel_either; [apply g_send0|apply g_send1].
Qed.

Section Calls.
  Variable R : rel.
  Hypothesis G : good R.
  Lemma faithful_set_nr n : faithful R (fun c => (Ok tt, set_pkt_nr c n)).
  Proof. split; [apply grows_still; reflexivity|]. intros c1 c2 F. left. split; [reflexivity|]. apply (g_set_nr _ G). exact F. Qed.
  Lemma faithful_set_cap n : faithful R (fun c => (Ok tt, set_cap c n)).
  Proof. split; [apply grows_still; reflexivity|]. intros c1 c2 F. left. split; [reflexivity|]. apply (g_set_cap _ G). exact F. Qed.
  Lemma faithful_set_status n : faithful R (fun c => (Ok tt, set_status c n)).
  Proof. split; [apply grows_still; reflexivity|]. intros c1 c2 F. left. split; [reflexivity|]. apply (g_set_status _ G). exact F. Qed.
  Lemma faithful_reset : faithful R reset_pkt_nr. Proof. apply (faithful_set_nr 0). Qed.
  Lemma faithful_cap {A} (f : N -> io A) (k : io A) : (forall c, k c = f (c_cap c) c) -> (forall n, faithful R (f n)) -> faithful R k.
  Proof.
    intros E H. split; [intros c; rewrite E; apply H|]. intros c1 c2 F. rewrite !E, (g_cap _ G _ _ F). apply H. exact F.
  Qed.
  Lemma faithful_fuel {A} (loop : nat -> io A) : (forall n, faithful R (loop n)) -> faithful R (fun c => loop (S (sched_len (c_rd c))) c).
  Proof. intros H. split; [intros c; apply H|]. intros c1 c2 F. rewrite (g_rd _ G _ _ F). apply H. exact F. Qed.
  Lemma faithful_read k : faithful R (io_read_exact k).
  Proof.
    split; [apply grows_still; intros c; unfold io_read_exact; destruct (read_exact k (c_rd c) []); reflexivity|].
    intros c1 c2 F. unfold io_read_exact. rewrite (g_rd _ G _ _ F). destruct (read_exact k (c_rd c1) []) as [r s]. left. split; [reflexivity|]. apply (g_set_rd _ G). exact F.
  Qed.
  Lemma faithful_recv : faithful R recv_msg.
  Proof.
    unfold recv_msg. apply (faithful_fuel (fun n => recv_loop n [])). intros n. generalize (@nil byte). induction n as [|n IH]; intros bs; cbn [recv_loop]; [apply faithful_lift|].
    apply faithful_bind; [apply faithful_read|]. intros l. cbv zeta. apply faithful_bind; [apply faithful_read|]. intros s.
    apply faithful_bind; [apply faithful_set_nr|]. intros _. apply faithful_bind; [apply faithful_read|]. intros p.
    destruct (_ <? max_payload); [apply faithful_ret|apply IH].
  Qed.
  Lemma faithful_send checks msg reset : faithful R (send_msg checks msg reset). Proof. apply (g_send _ G). Qed.
  Lemma faithful_parse {A} (p : parser A) msg : faithful R (parse p msg). Proof. apply faithful_lift. Qed.
  Lemma faithful_server_error {A} msg : faithful R (server_error (A := A) msg).
  Proof.
    unfold server_error. apply (faithful_cap (fun n => e <~ parse (read_err_packet n true) msg ;; ierr (error_of_err_packet e))); [reflexivity|].
    intros n. apply faithful_bind; [apply faithful_parse|]. intros e. apply faithful_err.
  Qed.
  Create HintDb ff.
  Hint Resolve @faithful_lift @faithful_ret @faithful_err @faithful_panic faithful_reset faithful_set_nr faithful_set_status faithful_set_cap
    faithful_send faithful_recv @faithful_parse @faithful_server_error : ff.
  Ltac ff := repeat first
    [ solve [auto with ff nocore]
    | apply faithful_bind; [|intros ?]
    | match goal with |- faithful R (match ?x with _ => _ end) => destruct x end ].

  Lemma faithful_col_defs n : faithful R (recv_col_defs n).
  Proof. induction n as [|n IH]; cbn [recv_col_defs]; ff. Qed.
  Lemma faithful_defs_eof : faithful R recv_defs_eof.
  Proof.
    apply (faithful_cap (fun n => if contains n DEPRECATE_EOF then iret tt else msg <~ recv_msg ;; _ <~ parse (read_eof_packet n) msg ;; iret tt)).
    - intros c. unfold recv_defs_eof. destruct (contains (c_cap c) DEPRECATE_EOF); reflexivity.
    - intros n. ff.
  Qed.
  Hint Resolve faithful_col_defs faithful_defs_eof : ff.
  Lemma faithful_new_rs id : faithful R (new_result_set id).
  Proof.
    apply (faithful_cap (fun n => msg <~ recv_msg ;; col_cnt <~ ilift (parse_col_cnt_packet n msg) ;;
      if col_cnt =? 0 then iret (rs_empty id) else col_defs <~ recv_col_defs (N.to_nat col_cnt) ;; _ <~ recv_defs_eof ;; iret (rs_new col_defs id))); [reflexivity|].
    intros n. ff.
  Qed.
  Lemma faithful_ok_only msg : faithful R (fun c => (_ <~ parse (read_ok_packet (c_cap c)) msg ;; iret tt) c).
  Proof. apply (faithful_cap (fun n => _ <~ parse (read_ok_packet n) msg ;; iret tt)); [reflexivity|]. intros n. ff. Qed.
  Hint Resolve faithful_new_rs faithful_ok_only : ff.
  Lemma faithful_query_exec checks sql : faithful R (query_exec checks sql).
  Proof.
    unfold query_exec. apply faithful_bind; [ff|]. intros _. apply (faithful_fuel query_exec_loop). intros n. induction n as [|n IH]; cbn [query_exec_loop]; ff.
  Qed.
  Lemma faithful_query_qry checks sql : faithful R (query_qry checks sql).
  Proof. unfold query_qry. ff. Qed.
  Lemma faithful_defs_block n : faithful R (recv_defs_block n).
  Proof. unfold recv_defs_block. ff. Qed.
  Hint Resolve faithful_query_exec faithful_query_qry faithful_defs_block : ff.
  Lemma faithful_prepare checks sql : faithful R (stmt_prepare checks sql).
  Proof. unfold stmt_prepare. ff. Qed.
  Lemma faithful_stmt_exec checks ps params : faithful R (stmt_exec checks ps params).
  Proof.
    unfold stmt_exec. apply faithful_bind; [ff|]. intros _. apply (faithful_fuel stmt_exec_loop). intros n. induction n as [|n IH]; cbn [stmt_exec_loop]; ff.
  Qed.
  Lemma faithful_stmt_close checks ps : faithful R (stmt_close checks ps).
  Proof. unfold stmt_close. ff. Qed.
  Lemma faithful_stmt_qry checks ps params : faithful R (stmt_qry checks ps params).
  Proof. unfold stmt_qry. ff. Qed.

  (** ** Result sets *)
  Definition ok_source {A} (next : rs_io (option A)) : Prop := forall rs, faithful R (call_rs next rs).
  Lemma ok_next {Q} (read : result_set -> parser (list Q)) : ok_source (next_row read).
  Proof.
    intros rs. eapply faithful_fun; [apply call_next|]. destruct (rs_completed rs); [apply faithful_ret|].
    apply (faithful_cap (fun n => ibind recv_msg (fun msg => let '(r, rs') := next_row_msg read n rs msg in ilift (rmap (fun a => (a, rs')) r)))); [reflexivity|].
    intros n. apply faithful_bind; [apply faithful_recv|]. intros msg. destruct (next_row_msg read n rs msg) as [r rs']. apply faithful_lift.
  Qed.
  Lemma ok_map {Q O} (read : result_set -> parser (list Q)) (f : list Q -> O) : ok_source (map_next_row read f).
  Proof.
    intros rs. apply (faithful_fun _ _ (ibind (call_rs (next_row read) rs) (fun '(o, rs') => iret (option_map f o, rs')))).
    - intros c. unfold map_next_row, call_rs, ibind. destruct (next_row read rs c) as [[[o|e|p|] rs'] c']; reflexivity.
    - apply faithful_bind; [apply ok_next|]. intros [o rs']. apply faithful_ret.
  Qed.
  Lemma ok_sources {A} (next : rs_io (option A)) : row_source next -> ok_source next.
  Proof. intros []; [apply ok_next|apply ok_next|apply ok_map|apply ok_map]. Qed.
  Lemma faithful_rows {A B} (next : rs_io (option A)) (step : B -> A -> B) acc rs : ok_source next ->
    faithful R (call_rs (fun rs c => while_rows (S (sched_len (c_rd c))) next step acc rs c) rs).
  Proof.
    intros H. apply (faithful_fuel (fun fuel => call_rs (while_rows fuel next step acc) rs)). intros n. revert acc rs. induction n as [|n IH]; intros acc rs.
    - apply (faithful_fun _ _ (ilift Loop)); [reflexivity|apply faithful_lift].
    - apply (faithful_fun _ _ (ibind (call_rs next rs) (fun '(o, rs') => match o with Some row => call_rs (while_rows n next step (step acc row)) rs' | None => iret (acc, rs') end))).
      + intros c. unfold call_rs, ibind. cbn [while_rows]. destruct (next rs c) as [[[[row|]|e|p|] rs'] c']; reflexivity.
      + apply faithful_bind; [apply H|]. intros [[row|] rs']; [apply IH|apply faithful_ret].
  Qed.
  Lemma faithful_first_or_none {A} (next : rs_io (option A)) rs : ok_source next -> faithful R (call_rs (rs_first_or_none next) rs).
  Proof. apply faithful_rows. Qed.
  Lemma faithful_first {A} (next : rs_io (option A)) rs : ok_source next -> faithful R (call_rs (rs_first next) rs).
  Proof.
    intros H. apply (faithful_fun _ _ (ibind (call_rs (rs_first_or_none next) rs) (fun '(o, rs') => match o with Some row => iret (row, rs') | None => ierr EEmptyResultSet end))).
    - intros c. unfold rs_first, call_rs, ibind. destruct (rs_first_or_none next rs c) as [[[[row|]|e|p|] rs'] c']; reflexivity.
    - apply faithful_bind; [apply faithful_first_or_none; exact H|]. intros [[row|] rs']; [apply faithful_ret|apply faithful_err].
  Qed.
  Lemma faithful_rs_close checks rs : faithful R (call_rs (rs_close checks) rs).
  Proof.
    destruct (rs_stmt_id rs) as [id|] eqn:E.
    - apply (faithful_fun _ _ (ibind (send_msg checks (write_stmt_close id) true) (fun u => iret (u, mk_res (rs_col_defs rs) (rs_completed rs) (rs_col_types rs) None)))).
      + intros c. unfold call_rs, rs_close, ibind. rewrite E. destruct (send_msg checks (write_stmt_close id) true c) as [[u|e|p|] c']; reflexivity.
      + ff.
    - apply (faithful_fun _ _ (iret (tt, rs))); [|apply faithful_ret]. intros c. unfold call_rs, rs_close. rewrite E. reflexivity.
  Qed.

  (** ** Commands *)
  Lemma faithful_capped_recv {A} (k : io A) (f : N -> bytes -> io A) : (forall c, k c = ibind recv_msg (fun msg c => f (c_cap c) msg c) c) ->
    (forall n msg, faithful R (f n msg)) -> faithful R k.
  Proof.
    intros E H. apply (faithful_fun _ _ _ E). apply faithful_bind; [apply faithful_recv|]. intros msg. apply (faithful_cap (fun n => f n msg)); [reflexivity|]. intros n. apply H.
  Qed.
  Lemma faithful_com_response : faithful R recv_com_response.
  Proof.
    apply (faithful_capped_recv _ (fun n msg => r <~ parse (read_com_response n) msg ;; match r with CrOk _ => iret tt | CrErr e => ierr (error_of_err_packet e) end)); [reflexivity|].
    intros n msg. ff.
  Qed.
  Hint Resolve faithful_com_response : ff.
  Lemma faithful_fields checks table wild : faithful R (conn_field_list checks table wild).
  Proof.
    unfold conn_field_list. apply faithful_bind; [ff|]. intros _. apply (faithful_fuel (fun fuel => field_list_loop fuel [])). intros n. generalize (@nil column_def).
    induction n as [|n IH]; intros acc; cbn [field_list_loop]; [ff|]. apply faithful_bind; [ff|]. intros msg.
    apply (faithful_cap (fun cap => r <~ parse (read_field_list_response cap true) msg ;;
         match r with FlErr err => ierr (error_of_err_packet err) | FlEof _ => iret acc | FlColDef col_def => field_list_loop n (acc ++ [col_def]) end)); [reflexivity|].
    intros cap. ff.
  Qed.
  Lemma faithful_debug checks : faithful R (conn_debug checks).
  Proof.
    unfold conn_debug. apply faithful_bind; [ff|]. intros _. apply (faithful_capped_recv _ (fun n msg => r <~ parse (read_debug_response n) msg ;;
      match r with DbEof _ => iret tt | DbErr err => ierr (error_of_err_packet err) end)); [reflexivity|]. intros n msg. ff.
  Qed.
  Lemma faithful_multi checks b : faithful R (conn_set_multi_stmts checks b).
  Proof.
    unfold conn_set_multi_stmts. apply faithful_bind; [ff|]. intros _.
    apply (faithful_capped_recv _ (fun n msg => r <~ parse (read_set_option_response n) msg ;;
      match r with SoEof _ => fun c => (Ok tt, set_cap c (if b then insert (c_cap c) MULTI_STATEMENTS else remove (c_cap c) MULTI_STATEMENTS))
                 | SoErr err => ierr (error_of_err_packet err) end)); [reflexivity|].
    intros n msg. apply faithful_bind; [ff|]. intros [eof|err]; [|ff].
    apply (faithful_cap (fun n c => (Ok tt, set_cap c (if b then insert n MULTI_STATEMENTS else remove n MULTI_STATEMENTS)))); [reflexivity|]. intros. ff.
  Qed.
  Section Auth.
    Variable sha1 sha256 : bytes -> bytes.
    Lemma faithful_change_user checks user pw db attrs : faithful R (conn_change_user sha1 sha256 checks user pw db attrs).
    Proof.
      apply (faithful_cap (fun n => _ <~ send_msg checks (write_change_user n (new_change_user user [] db (str "mysql_native_password") attrs)) true ;;
        fun c => change_user_loop sha1 sha256 checks pw (S (sched_len (c_rd c))) None c)); [reflexivity|].
      intros n. apply faithful_bind; [ff|]. intros _. apply (faithful_fuel (fun fuel => change_user_loop sha1 sha256 checks pw fuel None)). clear n. intros n.
      generalize (@None auth_plugin). induction n as [|n IH]; intros p; cbn [change_user_loop]; [ff|]. apply faithful_bind; [ff|]. intros msg.
      match goal with |- faithful R (fun c => ibind (parse (read_change_user_response (c_cap c)) ?msg) ?k c) =>
        apply (faithful_cap (fun cap => ibind (parse (read_change_user_response cap) msg) k)); [reflexivity|] end. intros cap. apply faithful_bind; [ff|]. intros [err|sw|okp|more]; ff.
    Qed.
    Lemma faithful_handshake checks opts : faithful R (handshake sha1 sha256 checks opts).
    Proof.
      unfold handshake. apply faithful_bind; [ff|]. intros msg. apply faithful_bind; [ff|]. intros hs. cbv zeta.
      apply faithful_bind; [apply (faithful_cap (fun n c => (Ok tt, set_cap c (login_caps n)))); [reflexivity|intros; ff]|]. intros _.
      apply faithful_bind; [ff|]. intros p. destruct (gen_init_auth_resp sha1 sha256 p (o_password opts) (hs_auth_data_1 hs ++ hs_auth_data_2 hs)) as [r p1].
      apply faithful_bind; [ff|]. intros resp.
      apply faithful_bind; [destruct (o_database opts); [ff|apply (faithful_cap (fun n c => (Ok tt, set_cap c (insert n CONNECT_WITH_DB)))); [reflexivity|intros; ff]]|]. intros _.
      apply (faithful_cap (fun cap => _ <~ send_msg checks (write_handshake_response (mk_hr cap 0xffffff 33 (o_username opts) resp (o_database opts) (hs_plugin hs) [])) false ;;
         fun c => handshake_loop sha1 sha256 checks cap (S (sched_len (c_rd c))) p1 c)); [reflexivity|].
      intros cap. apply faithful_bind; [ff|]. intros _. apply (faithful_fuel (fun fuel => handshake_loop sha1 sha256 checks cap fuel p1)). intros n.
      generalize p1. induction n as [|n IH]; intros q; cbn [handshake_loop]; [ff|]. apply faithful_bind; [ff|]. intros m. apply faithful_bind; [ff|].
      intros [okp|err|sw|more]; ff.
    Qed.
  End Auth.
  Lemma faithful_on_rs {A} (m : rs_io A) rs : faithful R (call_rs m rs) -> faithful R (on_rs m rs).
  Proof.
    intros H. apply (faithful_fun _ _ (ibind (call_rs m rs) (fun '(a, _) => iret a))).
    - intros c. unfold on_rs, call_rs, ibind. destruct (m rs c) as [[[a|e|p|] rs'] c']; reflexivity.
    - apply faithful_bind; [exact H|]. intros [a rs']. apply faithful_ret.
  Qed.
  Lemma faithful_files checks : faithful R (conn_binlog_files checks).
  Proof.
    unfold conn_binlog_files. apply faithful_bind; [ff|]. intros rs. apply (faithful_fuel (fun fuel => on_rs (binlog_files_loop fuel []) rs)). intros n.
    generalize (@nil (bytes * N)). revert rs. induction n as [|n IH]; intros rs files.
    - apply (faithful_fun _ _ (ilift Loop)); [reflexivity|apply faithful_lift].
    - apply (faithful_fun _ _ (ibind (call_rs (map_next_row text_rows binlog_file_mapper) rs) (fun '(o, rs') => match o with
        | Some (Ok file) => on_rs (binlog_files_loop n (files ++ [file])) rs' | Some (Err e) => ierr e | Some (Panic p) => ipanic p
        | Some Loop => ilift Loop | None => iret files end))).
      + intros c. unfold call_rs, on_rs, ibind. cbn [binlog_files_loop]. destruct (map_next_row text_rows binlog_file_mapper rs c) as [[[[[row|e|p|]|]|e|p|] rs'] c']; reflexivity.
      + apply faithful_bind; [apply ok_map|]. intros [[[row|e|p|]|] rs']; [apply IH|ff..].
  Qed.
  Lemma faithful_var {V} (from : option bytes -> res V) i rs :
    faithful R (on_rs (rs_first_or_none (map_next_row text_rows (fun row => get_col from row i))) rs).
  Proof. apply faithful_on_rs. apply faithful_first_or_none. apply ok_map. Qed.
  Hint Resolve @faithful_var faithful_files : ff.
  Lemma faithful_get_var {V} checks (from : option bytes -> res V) name global : faithful R (conn_get_var checks from name global).
  Proof. unfold conn_get_var. ff. Qed.
  Lemma faithful_get_user_var {V} checks (from : option bytes -> res V) name : faithful R (conn_get_user_var checks from name).
  Proof. unfold conn_get_user_var. ff. Qed.
  Hint Resolve @faithful_get_var @faithful_get_user_var : ff.

  (** ** Binlog streams *)
  Lemma faithful_required {V} checks (from : option bytes -> res V) name e : faithful R (get_required checks from name e).
  Proof. unfold get_required. ff. Qed.
  Lemma faithful_recv_fde o : faithful R (recv_fde o).
  Proof. unfold recv_fde. apply faithful_bind; [ff|]. intros msg. destruct (read_u8 msg) as [[b|e|p|] rest]; ff. Qed.
  Hint Resolve @faithful_required faithful_recv_fde : ff.
  Lemma faithful_start checksum o : faithful R (recv_stream_start checksum o).
  Proof.
    unfold recv_stream_start. apply faithful_bind; [ff|]. intros [|b rest]; [ff|]. destruct (b2n b =? 255); [ff|].
    destruct (b2n b =? 254).
    - apply (faithful_cap (fun n => _ <~ parse (read_eof_packet n) (b :: rest) ;; iret (mk_stream (mk_parser [] false) (bo_validate o) true (bo_non_block o)))); [reflexivity|].
      intros n. ff.
    - ff.
  Qed.
  Hint Resolve faithful_start : ff.
  Lemma faithful_event crc s : faithful R (next_event crc s).
  Proof.
    unfold next_event. destruct (s_completed s); [apply (faithful_ret R None)|]. apply (faithful_fuel (fun fuel => next_event_loop crc fuel s)).
    intros n. induction n as [|n IH]; cbn [next_event_loop]; [ff|]. apply faithful_bind; [unfold recv_and_parse_event; ff|]. intros [e| |]; ff.
  Qed.
  Lemma faithful_attempt {A} (m : io A) : faithful R m -> faithful R (attempt m).
  Proof.
    intros [H1 H2]. split.
    - intros c. specialize (H1 c). unfold attempt. destruct (m c) as [[a|[]|p|] d]; exact H1.
    - intros c1 c2 F. specialize (H2 c1 c2 F). unfold attempt. destruct (m c1) as [r1 d1], (m c2) as [r2 d2].
      destruct H2 as [(E1 & E2)|(E1 & E2 & E3)]; cbn [fst snd] in *.
      + subst r2. destruct r1 as [a|[]|p|]; left; auto.
      + subst r1. right. split; [reflexivity|]. split; [exact E2|]. destruct r2 as [a|[]|p|]; exact E3.
  Qed.
End Calls.

(** ** Executing and closing a statement: an error of the closing is dropped *)
Definition calm {A} (m : io A) : Prop := forall c, let c' := snd (m c) in c_rd c' = c_rd c /\ c_cap c' = c_cap c /\ c_status c' = c_status c.
Lemma calm_bind {A B} (m : io A) (f : A -> io B) : calm m -> (forall a, calm (f a)) -> calm (ibind m f).
Proof.
  intros H K c. specialize (H c). cbv zeta in *. unfold ibind. destruct (m c) as [[a|e|p|] d]; cbn [snd] in *; try exact H.
  destruct H as (<- & <- & <-). apply (K a d).
Qed.
Lemma calm_write bs : calm (io_write_all bs).
Proof. intros c. unfold io_write_all. destruct (write_all bs (c_ws c)) as [[r out] s]. cbn. auto. Qed.
Lemma calm_packet checks p : calm (send_packet checks p).
Proof.
  unfold send_packet. cbv zeta. apply calm_bind; [apply calm_write|]. intros _. apply calm_bind; [intros c; apply (calm_write [n2b (c_pkt_nr c)])|]. intros _.
  apply calm_bind; [apply calm_write|]. intros _ c. unfold inc_pkt_nr. destruct (c_pkt_nr c =? 255); [destruct checks|]; cbn; auto.
Qed.
Lemma calm_send checks msg reset : calm (send_msg checks msg reset).
Proof.
  unfold send_msg. apply calm_bind; [destruct reset; intros c; cbn; auto|]. intros _. generalize (S (length msg)). intros fuel. revert msg.
  induction fuel as [|fuel IH]; intros msg; cbn [send_loop]; [intros c; cbn; auto|]. destruct (max_payload <=? blen msg); [|apply calm_packet].
  apply calm_bind; [apply calm_packet|]. intros _. apply IH.
Qed.
Lemma send_free checks msg reset c : c_ws c = [] -> c_ws (snd (send_msg checks msg reset c)) = [].
Proof.
  set (J := fun (A : Type) (m : io A) => forall c, c_ws c = [] -> c_ws (snd (m c)) = []).
  assert (Jb : forall A B (m : io A) (f : A -> io B), J A m -> (forall a, J B (f a)) -> J B (ibind m f)).
  { intros A B m f H K d Ed. specialize (H d Ed). unfold ibind. destruct (m d) as [[a|e|p|] d']; try exact H. apply (K a d' H). }
  assert (Jw : forall bs, J unit (io_write_all bs)).
  { intros bs d Ed. unfold io_write_all. rewrite Ed. destruct bs; reflexivity. }
  assert (Jp : forall p, J unit (send_packet checks p)).
  { intros p. unfold send_packet. cbv zeta. apply Jb; [apply Jw|]. intros _. apply Jb; [intros d; apply (Jw [n2b (c_pkt_nr d)] d)|]. intros _. apply Jb; [apply Jw|]. intros _ d Ed.
    unfold inc_pkt_nr. destruct (c_pkt_nr d =? 255); [destruct checks|]; exact Ed. }
  assert (Js : J unit (send_msg checks msg reset)); [|apply Js].
  unfold send_msg. apply Jb; [destruct reset; intros d Ed; exact Ed|]. intros _. generalize (S (length msg)). intros fuel. revert msg.
  induction fuel as [|fuel IH]; intros msg; cbn [send_loop]; [intros d Ed; exact Ed|]. destruct (max_payload <=? blen msg); [|apply Jp].
  apply Jb; [apply Jp|]. intros _. apply IH.
Qed.
Lemma send_torn_polls checks msg reset : forall c ws f1 f2 f3 rest, accepting ws -> refuses f1 -> c_ws c = ws ++ f1 :: f2 :: f3 :: rest ->
  fst (send_msg checks msg reset c) = Err EIO -> c_ws (snd (send_msg checks msg reset c)) = f2 :: f3 :: rest.
Proof.
  intros c ws f1 f2 f3 rest Ac R1 E.
  set (J := fun (A : Type) (m : io A) => forall c ws, accepting ws -> c_ws c = ws ++ f1 :: f2 :: f3 :: rest ->
    match m c with (Ok _, c') => exists ws', accepting ws' /\ c_ws c' = ws' ++ f1 :: f2 :: f3 :: rest | (Err EIO, c') => c_ws c' = f2 :: f3 :: rest | _ => True end).
  assert (Jb : forall A B (m : io A) (f : A -> io B), J A m -> (forall a, J B (f a)) -> J B (ibind m f)).
  { intros A B m f H K d ws' Ad Ed. specialize (H d ws' Ad Ed). unfold ibind. destruct (m d) as [[a|[]|p|] d']; try exact H; try exact I.
    destruct H as (w2 & A2 & E2). apply (K a d' w2 A2 E2). }
  assert (Jw : forall bs, J unit (io_write_all bs)).
  { intros bs d ws' Ad Ed. unfold io_write_all. rewrite Ed. destruct (write_fails ws' f1 (f2 :: f3 :: rest) Ad R1 bs) as [(w2 & A2 & W)|(x & y & _ & W)]; rewrite W; cbn; eauto. }
  assert (Jp : forall p, J unit (send_packet checks p)).
  { intros p. unfold send_packet. cbv zeta. apply Jb; [apply Jw|]. intros _. apply Jb; [intros d; apply (Jw [n2b (c_pkt_nr d)] d)|]. intros _. apply Jb; [apply Jw|]. intros _ d ws' Ad Ed.
    unfold inc_pkt_nr. destruct (c_pkt_nr d =? 255); [destruct checks|]; cbn; eauto. }
  assert (Js : J unit (send_msg checks msg reset)).
  { unfold send_msg. apply Jb; [destruct reset; intros d ws' Ad Ed; cbn; eauto|]. intros _. generalize (S (length msg)). intros fuel. revert msg.
    induction fuel as [|fuel IH]; intros msg; cbn [send_loop]; [intros d ws' Ad Ed; exact I|]. destruct (max_payload <=? blen msg); [|apply Jp].
    apply Jb; [apply Jp|]. intros _. apply IH. }
  specialize (Js c ws Ac E). destruct (send_msg checks msg reset c) as [r c']. cbn [fst snd]. intros ->. exact Js.
Qed.

Lemma close_sends checks id c : c_ws c = [] -> exists w c', send_msg checks (write_stmt_close id) true c = (Ok tt, c') /\ c_out c' = c_out c ++ w /\
  close_packet (id mod 2 ^ 32) w.
Proof.
  intros E. destruct (send_msg_spec checks c (write_stmt_close id) true) as (seqs & w & c' & S & W & O & C & _).
  - rewrite E. exact I.
  - reflexivity.
  - right. change (packet_count (blen (write_stmt_close id))) with 1. lia.
  - exists w, c'. split; [exact S|]. split; [exact O|]. exists (to_le_bytes 4 id).
    assert (L : is_le 4 (id mod 2 ^ 32) (to_le_bytes 4 id)).
    { split; [apply to_le_bytes_length|]. apply (le_val_to_le_bytes 4). }
    split; [exact L|]. remember (write_stmt_close id) as p eqn:Ep. destruct W as [s p w Lp W|s p w seqs p' w' Lp W W'].
    + subst p. destruct C as [C _]. replace x00 with s; [exact W|]. apply (f_equal Byte.of_N) in C. rewrite Byte.of_to_N in C. cbn in C. congruence.
    + exfalso. apply (f_equal (@length byte)) in Ep. rewrite app_length in Ep. assert (length (write_stmt_close id) = 5%nat) by reflexivity. unfold full in Lp. lia.
Qed.
Lemma close_lost checks ps d1 d2 : intact d1 d2 ->
  (fst (stmt_close checks ps d1) = Ok tt /\ fst (stmt_close checks ps d2) = Ok tt /\ intact (snd (stmt_close checks ps d1)) (snd (stmt_close checks ps d2))) \/
  (fst (stmt_close checks ps d1) = Err EIO /\ fst (stmt_close checks ps d2) = Ok tt /\ missing (snd (stmt_close checks ps d1)) (snd (stmt_close checks ps d2))).
Proof.
  intros F. pose proof F as [(ws & Ac & f1 & f2 & f3 & rest & R1 & R2 & R3 & E) H2]. unfold stmt_close.
  destruct (close_sends checks (ps_stmt_id ps) d2) as (w & c' & S & O & W); [subst d2; reflexivity|].
  destruct (intact_send checks (write_stmt_close (ps_stmt_id ps)) true) as [Gr P]. specialize (P d1 d2 F). destruct (Gr d1) as (sent & Gd). rewrite S in *.
  pose proof (calm_send checks (write_stmt_close (ps_stmt_id ps)) true d1) as C1. pose proof (calm_send checks (write_stmt_close (ps_stmt_id ps)) true d2) as C2.
  pose proof (send_torn_polls checks (write_stmt_close (ps_stmt_id ps)) true d1 ws f1 f2 f3 rest Ac R1 E) as T. rewrite S in C2. cbv zeta in *. cbn [fst snd] in *.
  destruct P as [[P1 P2]|(P1 & _ & (lost & P3))]; [left; auto|right]. split; [exact P1|]. split; [reflexivity|]. cbn [fst snd] in *.
  destruct C1 as (A1 & A2 & A3), C2 as (B1 & B2 & B3). subst d2. cbn [healthy c_rd c_cap c_status c_out] in *.
  split; [congruence|]. split; [congruence|]. split; [congruence|]. split.
  - pose proof (send_free checks (write_stmt_close (ps_stmt_id ps)) true (healthy d1) eq_refl) as Q. rewrite S in Q. exact Q.
  - split; [exists f2, f3, rest; auto|]. exists (ps_stmt_id ps mod 2 ^ 32), sent, lost. split; [exact P3|].
    rewrite P3, Gd, <- app_assoc in O. apply app_inv_head in O. rewrite O. exact W.
Qed.
Lemma grows_exec_close checks ps params : grows (stmt_exec_close checks ps params).
Proof.
  intros c. unfold stmt_exec_close. cbv zeta. destruct (proj1 (faithful_stmt_exec _ good_intact checks ps params) c) as (x & X).
  destruct (stmt_exec checks ps params c) as [r d]. cbn [snd] in X. destruct (proj1 (faithful_stmt_close _ good_intact checks ps) d) as (y & Y).
  destruct (stmt_close checks ps d) as [r' d']. cbn [snd] in Y.
  destruct r as [a|e|p|]; [|destruct r' as [a'|e'|p'|]|..]; try (destruct r' as [a'|e'|p'|]); try (exists (x ++ y); cbn [snd]; rewrite Y, X, app_assoc; reflexivity); exists x; exact X.
Qed.
Lemma close_refused checks ps d : refusing1 (c_ws d) -> exists d', stmt_close checks ps d = (Err EIO, d') /\ c_out d' = c_out d.
Proof.
  intros (f & rest & Rf & E). destruct (send_refused checks (write_stmt_close (ps_stmt_id ps)) true d f rest Rf E) as (d' & H1 & _ & H2). exists d'. auto.
Qed.
Lemma exec_close_torn checks ps params c1 c2 (R : rel) : (forall s, left_over R s -> refusing1 s) -> torn R (stmt_exec checks ps params c1) (stmt_exec checks ps params c2) ->
  torn either (stmt_exec_close checks ps params c1) (stmt_exec_close checks ps params c2).
Proof.
  intros L (E & W & more & M). unfold stmt_exec_close; cbv zeta.
  destruct (stmt_exec checks ps params c1) as [r1 d1], (stmt_exec checks ps params c2) as [r2 d2]; cbn [fst snd] in *; subst.
  destruct (close_refused checks ps d1 (L _ W)) as (d1' & -> & O). split; [reflexivity|]. split; [exact I|]. cbn [snd]. rewrite O.
  destruct (proj1 (faithful_stmt_close _ good_intact checks ps) d2) as (y & Y). destruct (stmt_close checks ps d2) as [r' d']. cbn [snd] in Y.
  destruct r2 as [a|e|p|]; try (destruct r' as [a'|e'|p'|]); try (exists (more ++ y); cbn [snd]; rewrite Y, M, app_assoc; reflexivity); exists more; exact M.
Qed.
Lemma faithful_exec_close checks ps params : faithful either (stmt_exec_close checks ps params).
Proof.
  split; [apply grows_exec_close|]. intros c1 c2 [F|F].
  - destruct (proj2 (faithful_stmt_exec _ good_intact checks ps params) c1 c2 F) as [[E I']|T].
    + unfold stmt_exec_close; cbv zeta. destruct (stmt_exec checks ps params c1) as [r1 d1], (stmt_exec checks ps params c2) as [r2 d2]; cbn [fst snd] in *; subst.
      destruct (close_lost checks ps d1 d2 I') as [(K1 & K2 & K3)|(K1 & K2 & K3)];
        destruct (stmt_close checks ps d1) as [s1 e1], (stmt_close checks ps d2) as [s2 e2]; cbn [fst snd] in *; subst;
        destruct r2; left; (split; [reflexivity|]); cbn [snd]; first [left; assumption | right; assumption | idtac].
    + right. apply (exec_close_torn checks ps params c1 c2 intact); [|exact T]. intros s (f1 & f2 & rest & R1 & R2 & ->). exists f1, (f2 :: rest). auto.
  - right. apply (exec_close_torn checks ps params c1 c2 missing); [auto|]. pose proof (proj2 (missing_send checks (write_stmt_execute (ps_stmt_id ps) params) true) c1 c2 F) as K.
    destruct F as (E1 & E2 & E3 & E4 & (f1 & f2 & rest & R1 & R2 & E5) & id & sent & lost & E6 & _).
    destruct (send_refused checks (write_stmt_execute (ps_stmt_id ps) params) true c1 f1 (f2 :: rest) R1 E5) as (d & Ed & Wd & Od).
    assert (X : stmt_exec checks ps params c1 = (Err EIO, d)) by (unfold stmt_exec, ibind; rewrite Ed; reflexivity).
    unfold torn. rewrite X. split; [reflexivity|]. split; [exists f2, rest; auto|]. cbn [snd]. rewrite Od.
    destruct (proj1 (faithful_stmt_exec _ good_intact checks ps params) c2) as (more & M). exists (lost ++ more). rewrite M, E6, app_assoc. reflexivity.
Qed.

(** ** All programs *)
Lemma faithful_set_user_var checks name v : faithful either (conn_set_user_var checks name v).
Proof. unfold conn_set_user_var. apply faithful_bind; [apply faithful_prepare; exact good_either|]. intros. apply faithful_exec_close. Qed.
Lemma faithful_set_var checks name v global : faithful either (conn_set_var checks name v global).
Proof. unfold conn_set_var. apply faithful_bind; [apply faithful_prepare; exact good_either|]. intros. apply faithful_exec_close. Qed.
Lemma faithful_request checks uuid id o : faithful either (request_stream checks uuid id o).
Proof.
  pose proof good_either as G. unfold request_stream.
  apply faithful_bind; [apply (faithful_required _ G)|intros master].
  apply faithful_bind; [apply faithful_set_user_var|intros _].
  apply faithful_bind; [apply (faithful_required _ G)|intros sum].
  apply faithful_bind; [apply faithful_set_user_var|intros _].
  apply faithful_bind; [apply (faithful_required _ G)|intros mode].
  apply faithful_bind; [apply (faithful_required _ G)|intros su].
  apply faithful_bind; [apply faithful_set_user_var|intros _]. cbv zeta.
  apply faithful_bind; [apply faithful_bind; [apply (faithful_send _ G)|intros _; apply (faithful_com_response _ G)]|intros _].
  apply faithful_bind; [apply (faithful_send _ G)|intros _]. apply (faithful_start _ G).
Qed.
Lemma program_faithful sha1 sha256 crc checks {A} (m : io A) : program sha1 sha256 crc checks m -> faithful either m.
Proof.
  pose proof good_either as G.
  assert (C : forall msg, faithful either (ibind (send_msg checks msg true) (fun _ => recv_com_response))).
  { intros msg. apply faithful_bind; [apply (faithful_send _ G)|intros _; apply (faithful_com_response _ G)]. }
  induction 1; try (match goal with H : row_source _ |- _ => apply (ok_sources _ G) in H end).
  - apply faithful_lift.
  - apply faithful_bind; assumption.
  - apply faithful_attempt; assumption.
  - apply (faithful_recv _ G).
  - apply (faithful_send _ G).
  - apply (faithful_handshake _ G).
  - apply (faithful_send _ G).
  - apply C.
  - apply C.
  - apply C.
  - apply C.
  - apply C.
  - apply C.
  - apply C.
  - apply (faithful_fields _ G).
  - apply faithful_bind; [apply (faithful_send _ G)|intros _]. apply faithful_bind; [apply (faithful_recv _ G)|intros msg]. apply faithful_lift.
  - apply (faithful_debug _ G).
  - apply faithful_bind; [apply (faithful_send _ G)|intros _]. apply faithful_bind; [apply (faithful_recv _ G)|intros msg]. apply (faithful_ok_only _ G).
  - apply (faithful_multi _ G).
  - apply faithful_bind; [apply (faithful_send _ G)|intros _]. apply (faithful_new_rs _ G).
  - apply (faithful_change_user _ G).
  - apply (faithful_files _ G).
  - apply (faithful_get_var _ G).
  - apply faithful_set_var.
  - apply (faithful_get_user_var _ G).
  - apply faithful_set_user_var.
  - apply (faithful_query_exec _ G).
  - apply (faithful_query_qry _ G).
  - apply (faithful_prepare _ G).
  - apply (faithful_stmt_exec _ G).
  - apply faithful_exec_close.
  - apply (faithful_stmt_qry _ G).
  - apply (faithful_stmt_close _ G).
  - match goal with H : ok_source _ _ |- _ => apply H end.
  - unfold rs_all. apply (faithful_rows _ G). assumption.
  - apply (faithful_first _ G). assumption.
  - apply (faithful_first_or_none _ G). assumption.
  - unfold rs_count. apply (faithful_rows _ G). assumption.
  - apply (faithful_rs_close _ G).
  - apply faithful_request.
  - apply (faithful_event _ G).
Qed.
