(** * What calls made of several exchanges report *)
From Coq Require Import Strings.String.
From Coq Require Import List NArith ZArith Lia Arith Bool.
From Verif Require Import Model.Base Model.BytesParser Model.LenEnc Model.Utf8 Model.Conn Model.Flags Model.Packet Model.Auth Model.Cmd Model.Col Model.Row Model.Stmt
  Model.Fmt Model.Extract Model.Session Model.Event Model.EventBody Model.Stream Spec.Nums Spec.LenEncSpec Spec.Framing Spec.Programs Spec.Packets Spec.ResultSets Spec.Hostile Spec.HostileExact Spec.Accepts Spec.AcceptsEvents
  Spec.AcceptsFile Spec.Verdicts Spec.VerdictsCalls
  Proofs.BaseLemmas Proofs.BytesParserProofs Proofs.ConnProofs Proofs.AuthProofs Proofs.CommandProofs Proofs.SessionProofs Proofs.ScheduleProofs Proofs.HostileProofs Proofs.HostileExactProofs
  Proofs.AcceptsProofs Proofs.AcceptsPackets Proofs.AcceptsRows Proofs.AcceptsEvents Proofs.AcceptsBodies Proofs.AcceptsFileProofs Proofs.VerdictsProofs Proofs.VerdictsLogin.
Import ListNotations.
Open Scope N_scope.

(** ** Calls that leave the session usable *)
Definition kc {A} (m : io A) : Prop := forall c a d, accepting (c_ws c) -> m c = (Ok a, d) -> accepting (c_ws d) /\ c_cap d = c_cap c.
Lemma kc_lift {A} (r : res A) : kc (ilift r). Proof. intros c a d Ac [= _ <-]. auto. Qed.
Lemma kc_ret {A} (a : A) : kc (iret a). Proof. apply (kc_lift (Ok a)). Qed.
Lemma kc_err {A} e : kc (A := A) (ierr e). Proof. apply (kc_lift (Err e)). Qed.
Lemma kc_panic {A} e : kc (A := A) (ipanic e). Proof. apply (kc_lift (Panic e)). Qed.
Lemma kc_bind {A B} (m : io A) (f : A -> io B) : kc m -> (forall a, kc (f a)) -> kc (ibind m f).
Proof.
  intros M F c b d Ac. unfold ibind. destruct (m c) as [[a|e| |] d1] eqn:E; try discriminate. intros E2.
  destruct (M _ _ _ Ac E) as [A1 C1]. destruct (F a _ _ _ A1 E2) as [A2 C2]. split; [exact A2|congruence].
Qed.
Lemma kc_recv : kc recv_msg.
Proof. intros c a d Ac E. apply recv_next in E. destruct E as (A1 & _ & C1 & _). auto. Qed.
Lemma kc_send checks msg : checks = false \/ packet_count (blen msg) <= 255 -> kc (send_msg checks msg true).
Proof.
  intros F c a d Ac E. destruct (send_msg_spec checks c msg true Ac) as (seqs & w & d' & E' & _ & _ & _ & _ & _ & Ad & Sb); [reflexivity|exact F|].
  rewrite E in E'. injection E' as -> <-. destruct Sb as (_ & Sb & _). split; [exact Ad|congruence].
Qed.
Lemma kc_cap {A} (f : N -> io A) : (forall n, kc (f n)) -> kc (fun c => f (c_cap c) c).
Proof. intros H c a d. apply H. Qed.
Lemma kc_fuel {A} (f : nat -> io A) : (forall n, kc (f n)) -> kc (fun c => f (S (sched_len (c_rd c))) c).
Proof. intros H c a d. apply H. Qed.
Lemma kc_server {A} m : kc (server_error (A := A) m).
Proof. apply (kc_cap (fun n => e <~ parse (read_err_packet n true) m ;; ierr (error_of_err_packet e))). intros n. apply kc_bind; [apply kc_lift|]. intros. apply kc_err. Qed.
Lemma kc_ok_tail m : kc (fun c => (_ <~ parse (read_ok_packet (c_cap c)) m ;; iret tt) c).
Proof. apply (kc_cap (fun n => _ <~ parse (read_ok_packet n) m ;; iret tt)). intros n. apply kc_bind; [apply kc_lift|]. intros. apply kc_ret. Qed.
Lemma kc_com_tail m : kc (fun c => (r <~ parse (read_com_response (c_cap c)) m ;; match r with CrOk _ => iret tt | CrErr e => ierr (error_of_err_packet e) end) c).
Proof.
  apply (kc_cap (fun n => r <~ parse (read_com_response n) m ;; match r with CrOk _ => iret tt | CrErr e => ierr (error_of_err_packet e) end)). intros n. apply kc_bind; [apply kc_lift|].
  intros [r|r]; [apply kc_ret|apply kc_err].
Qed.
Ltac kc := repeat first
  [ assumption | apply kc_server | apply kc_ok_tail | apply kc_com_tail | apply kc_ret | apply kc_err | apply kc_panic | apply kc_recv | apply kc_lift | (apply kc_bind; [|intros])
  | match goal with |- kc (match ?x with _ => _ end) => destruct x | |- kc (parse _ _) => apply kc_lift end ].
Lemma kc_defs n : kc (recv_col_defs n). Proof. induction n as [|n IH]; cbn [recv_col_defs]; kc. Qed.
Lemma kc_defs_eof : kc recv_defs_eof.
Proof. intros c a d Ac E. split; [|apply (defs_eof_cap c d); destruct a; exact E]. revert E. unfold recv_defs_eof. destruct (contains _ _).
  - intros [= _ <-]. exact Ac.
  - intros E. apply (kc_bind recv_msg (fun msg => _ <~ parse (read_eof_packet (c_cap c)) msg ;; iret tt)) in E; [exact (proj1 E)|apply kc_recv|intros; kc|exact Ac].
Qed.
Lemma kc_new_rs id : kc (new_result_set id).
Proof.
  pose proof kc_defs_eof. pose proof kc_defs.
  apply (kc_cap (fun n => msg <~ recv_msg ;; col_cnt <~ ilift (parse_col_cnt_packet n msg) ;; if col_cnt =? 0 then iret (rs_empty id)
    else col_defs <~ recv_col_defs (N.to_nat col_cnt) ;; _ <~ recv_defs_eof ;; iret (rs_new col_defs id))). intros n. kc. auto.
Qed.
Lemma kc_qry checks sql : checks = false \/ packet_count (blen (write_query sql)) <= 255 -> kc (query_qry checks sql).
Proof. intros F. pose proof (kc_send _ _ F). pose proof (kc_new_rs None). unfold query_qry. kc. Qed.
Lemma kc_block n : kc (recv_defs_block n).
Proof. pose proof kc_defs_eof. unfold recv_defs_block. kc. apply kc_defs. Qed.
Lemma kc_prepare checks sql : checks = false \/ packet_count (blen (write_stmt_prepare sql)) <= 255 -> kc (stmt_prepare checks sql).
Proof. intros F. pose proof (kc_send _ _ F). unfold stmt_prepare. kc; apply kc_block. Qed.
Lemma kc_exec_loop f : kc (stmt_exec_loop f).
Proof.
  induction f as [|f IH]; cbn [stmt_exec_loop]; [apply kc_lift|]. kc.
Qed.
Lemma kc_exec checks ps params : checks = false \/ packet_count (blen (write_stmt_execute (ps_stmt_id ps) params)) <= 255 -> kc (stmt_exec checks ps params).
Proof. intros F. pose proof (kc_send _ _ F). unfold stmt_exec. kc. apply (kc_fuel stmt_exec_loop). intros n. apply kc_exec_loop. Qed.
Lemma kc_exec_close checks ps params : checks = false \/ packet_count (blen (write_stmt_execute (ps_stmt_id ps) params)) <= 255 -> kc (stmt_exec_close checks ps params).
Proof.
  intros F c a d Ac. unfold stmt_exec_close. pose proof (kc_exec checks ps params F c) as K.
  assert (S : kc (send_msg checks (write_stmt_close (ps_stmt_id ps)) true)) by (apply kc_send; right; change (packet_count (blen (write_stmt_close (ps_stmt_id ps)))) with 1; lia).
  destruct (stmt_exec checks ps params c) as [[u|e| |] c'] eqn:E; try discriminate.
  - destruct (K u c' Ac eq_refl) as [A1 C1]. specialize (S c'). unfold stmt_close. destruct (close_ok checks ps c' A1) as (c2 & E2 & A2). unfold stmt_close in E2. rewrite E2 in *. intros [= _ <-].
    destruct (S tt c2 A1 eq_refl) as [_ C2]. split; [exact A2|congruence].
  - destruct (stmt_close checks ps c') as [[?|?| |] ?]; discriminate.
Qed.
Lemma kc_com : kc recv_com_response.
Proof.
  unfold recv_com_response. kc.
Qed.
Lemma kc_rows {Q B} (read_row : result_set -> parser (list Q)) (step : B -> list Q -> B) f : forall acc rs, kc (on_rs (while_rows f (next_row read_row) step acc) rs).
Proof.
  induction f as [|f IH]; intros acc rs c a d Ac; unfold on_rs; cbn [while_rows]; [discriminate|]. unfold next_row at 1. destruct (rs_completed rs); [intros [= _ <-]; auto|].
  destruct (recv_msg c) as [[m|e| |] c'] eqn:E; try discriminate. destruct (kc_recv _ _ _ Ac E) as [A1 C1].
  destruct (next_row_msg read_row (c_cap c) rs m) as [[[row|]|e| |] rs']; try discriminate.
  - intros H. assert (H' : on_rs (while_rows f (next_row read_row) step (step acc row)) rs' c' = (Ok a, d)) by exact H. apply IH in H'; [|exact A1]. destruct H'. split; [assumption|congruence].
  - intros [= _ <-]. auto.
Qed.
Lemma while_map {Q O B} (read_row : result_set -> parser (list Q)) (g : list Q -> O) (step : B -> O -> B) f : forall acc rs c,
  while_rows f (map_next_row read_row g) step acc rs c = while_rows f (next_row read_row) (fun a row => step a (g row)) acc rs c.
Proof.
  induction f as [|f IH]; intros acc rs c; [reflexivity|]. cbn [while_rows]. unfold map_next_row at 1.
  destruct (next_row read_row rs c) as [[[[row|]|e|p|] rs'] c']; cbn [rmap rbind option_map]; try reflexivity. apply IH.
Qed.

(** ** Rows and nothing but errors of our own *)
Lemma pl_repeat {A} (p : parser A) n : plain p -> plain (prepeat n p).
Proof. intros P. induction n as [|n IH]; cbn [prepeat]; pl. Qed.
Lemma pl_text_row n : plain (read_text_row n).
Proof.
  pose proof pl_les. unfold read_text_row. apply pl_bind; [|intros _; apply pl_repeat; unfold read_text_value; pl].
  apply pl_lift. intros e. unfold with_capacity. destruct (_ <=? _) || destruct (_ <? _); intros [=].
Qed.
Lemma recv_own c e d : recv_msg c = (Err e, d) -> own e.
Proof. intros E. destruct (recv_msg_total c) as [(seqs & m & w & r & d' & E2 & _)|(d' & E2)]; rewrite E in E2; [discriminate|]. injection E2 as -> _. exact I. Qed.
Lemma row_msg_own {Q} (read_row : result_set -> parser (list Q)) cap rs m e : plain (read_row rs) -> fst (next_row_msg read_row cap rs m) = Err e -> own e.
Proof.
  intros P. unfold next_row_msg. destruct m as [|b m]; [intros [= <-]; exact I|]. destruct (_ && _).
  - destruct (contains _ _).
    + destruct (rmap _ _); cbn [fst]; intros [=]; subst; exact I.
    + destruct (rmap _ _); cbn [fst]; intros [=]; subst; exact I.
  - cbn [fst]. destruct (fst (read_row rs (b :: m))) eqn:E; cbn [rmap rbind]; try discriminate. intros [= <-]. eapply P, E.
Qed.
Lemma next_own {Q} (read_row : result_set -> parser (list Q)) rs c e rs' c' : (forall rs, plain (read_row rs)) -> next_row read_row rs c = (Err e, rs', c') -> own e.
Proof.
  intros P. unfold next_row. destruct (rs_completed rs); [discriminate|]. destruct (recv_msg c) as [[m|e0| |] d] eqn:E; try discriminate.
  - pose proof (row_msg_own read_row (c_cap c) rs m e (P rs)) as O. destruct (next_row_msg read_row (c_cap c) rs m) as [r rs2]. intros [= -> _ _]. apply O. reflexivity.
  - intros [= <- _ _]. eapply recv_own, E.
Qed.
Lemma while_own {Q B} (read_row : result_set -> parser (list Q)) (step : B -> list Q -> B) : (forall rs, plain (read_row rs)) -> forall f acc rs c e,
  fst (on_rs (while_rows f (next_row read_row) step acc) rs c) = Err e -> own e.
Proof.
  intros P. induction f as [|f IH]; intros acc rs c e; unfold on_rs; cbn [while_rows]; [discriminate|].
  destruct (next_row read_row rs c) as [[[[row|]|e0| |] rs'] c'] eqn:E; cbn [fst]; try discriminate; [apply IH|]. intros [= <-]. eapply next_own; eassumption.
Qed.
Lemma rp_of_dl {A} (m : io A) c L : delivers m c L -> (forall e, fst (m c) = Err e -> own e) -> reports m c (fun v ms => exists a, v = Done a /\ L a ms).
Proof.
  intros D O [a|code mk st msg] rest; cbn [told].
  - rewrite (D a rest). split; intros (ms & w & W & E & H); exists ms, w; repeat split; auto; [exists a; auto|]. destruct H as (a' & X & H). injection X as <-. exact H.
  - split; [intros [E _]; destruct (O _ E)|]. intros (ms & w & _ & _ & a & X & _). discriminate X.
Qed.

Lemma refusal_any {A B} cap code mk st msg ms : refusal cap (Refused (A := A) code mk st msg) ms -> refusal cap (Refused (A := B) code mk st msg) ms.
Proof. intros (p & m & E & S & Lp & U1 & U2 & X). exists p, m. injection X as -> -> -> ->. auto 10. Qed.

(** ** A query and its rows *)
Lemma query_rows {A} checks sql (use : result_set -> io A) (Out : list (list (option bytes)) -> A -> Prop) c :
  accepting (c_ws c) -> checks = false \/ packet_count (blen (write_query sql)) <= 255 ->
  (forall rs d, rs_completed rs = false -> reports (use rs) d (fun v ms => exists rows a, v = Done a /\ rows_reply (c_cap d) (text_row_layout (N.of_nat (length (rs_col_defs rs)))) rows ms /\ Out rows a)) ->
  (forall rs d, rs_completed rs = true -> reports (use rs) d (fun v ms => exists a, v = Done a /\ Out [] a /\ ms = [])) ->
  reports (rs <~ query_qry checks sql ;; use rs) c (fun v ms => (exists rows a, v = Done a /\ says_rows (c_cap c) rows ms /\ Out rows a) \/ refusal (c_cap c) v ms).
Proof.
  intros Ac F Op Cl. eapply rp_iff; [|eapply (rp_bind _ _ c _ (fun rs v ms => if rs_completed rs then exists a, v = Done a /\ Out [] a /\ ms = []
    else exists rows a, v = Done a /\ rows_reply (c_cap c) (text_row_layout (N.of_nat (length (rs_col_defs rs)))) rows ms /\ Out rows a)); [apply (query_qry_reports checks sql c Ac F)|]].
  2:{ intros rs d E. destruct (kc_qry checks sql F c rs d Ac E) as [_ Cd]. destruct (rs_completed rs) eqn:Cm; [apply Cl, Cm|]. rewrite <- Cd. apply Op, Cm. }
  intros v ms. split.
  - intros [(rs & ms1 & ms2 & -> & Q & H)|H].
    + left. destruct Q as [(Er & m & -> & M)|[(n & defs & m & dms & Er & -> & N & Cc & D)|Q]].
      * injection Er as ->. cbn [rs_completed] in H. destruct H as (a & -> & O & ->). exists [], a. split; [reflexivity|]. split; [left; split; [reflexivity|]; exists m; auto|exact O].
      * injection Er as ->. cbn [rs_completed rs_col_defs] in H. destruct H as (rows & a & -> & R & O). exists rows, a. split; [reflexivity|]. split; [|exact O].
        right. exists n, defs, m, dms, ms2. split; [reflexivity|]. split; [exact N|]. split; [exact Cc|]. split; [exact D|].
        destruct D as (? & ? & _ & Ln & _). rewrite <- Ln. exact R.
      * destruct Q as (p & m & _ & _ & _ & _ & _ & X). discriminate X.
    + destruct v; [destruct H|]. right. destruct H as [(X & _)|[(? & ? & ? & ? & X & _)|H]]; [discriminate X|discriminate X|].
      apply (refusal_any _ _ _ _ _ _ H).
  - intros [(rows & a & -> & R & O)|H].
    + left. destruct R as [(-> & m & -> & M)|(n & defs & m & dms & rms & -> & N & Cc & D & R)].
      * exists (mk_res [] true [] None), [m], []. split; [reflexivity|]. split; [left; split; [reflexivity|]; exists m; auto|]. cbn [rs_completed]. exists a. auto.
      * exists (mk_res defs false (map cd_type defs) None), (m :: dms), rms. split; [reflexivity|]. split; [right; left; exists n, defs, m, dms; auto|].
        cbn [rs_completed rs_col_defs]. exists rows, a. split; [reflexivity|]. split; [|exact O]. destruct D as (? & ? & _ & Ln & _). rewrite Ln. exact R.
    + right. destruct H as (p & m & -> & S & Lp & U1 & U2 & ->). right. right. exists p, m. auto 10.
Qed.

(** the rows of a result set, whatever is done with them *)
Lemma use_rows {B} (step : B -> list (option bytes) -> B) (acc : B) (loop : result_set -> io B) (Out : list (list (option bytes)) -> B -> Prop) :
  (forall rs c, loop rs c = on_rs (while_rows (S (sched_len (c_rd c))) (next_row text_rows) step acc) rs c) ->
  (forall rows a, Out rows a <-> a = fold_left step rows acc) ->
  (forall rs d, rs_completed rs = false -> reports (loop rs) d (fun v ms => exists rows a, v = Done a /\ rows_reply (c_cap d) (text_row_layout (N.of_nat (length (rs_col_defs rs)))) rows ms /\ Out rows a)) /\
  (forall rs d, rs_completed rs = true -> reports (loop rs) d (fun v ms => exists a, v = Done a /\ Out [] a /\ ms = [])).
Proof.
  intros E O. split; intros rs d H.
  - eapply (rp_at _ (fun c => on_rs (while_rows (S (sched_len (c_rd c))) (next_row text_rows) step acc) rs c) d d); [apply E|reflexivity|].
    apply (rp_rounds (fun f => on_rs (while_rows f (next_row text_rows) step acc) rs)). intros f Lf.
    eapply rp_iff; [|apply rp_of_dl; [apply (while_delivers text_rows rs _ (text_takes rs) H step f acc d Lf)|intros e; apply while_own; intros; apply pl_text_row]].
    intros v ms. cbv beta. split.
    + intros (a & -> & rows & -> & R). exists rows, (fold_left step rows acc). split; [reflexivity|]. split; [exact R|]. apply O. reflexivity.
    + intros (rows & a & -> & R & Oa). apply O in Oa. exists a. split; [reflexivity|]. exists rows. auto.
  - eapply (rp_at _ (iret acc) d d); [rewrite E; unfold on_rs; cbn [while_rows]; unfold next_row; rewrite H; reflexivity|reflexivity|].
    eapply rp_iff; [|apply rp_ret]. intros v ms. cbv beta. split.
    + intros [-> ->]. exists acc. split; [reflexivity|]. split; [apply O; reflexivity|reflexivity].
    + intros (a & -> & Oa & ->). apply O in Oa. cbn in Oa. subst. auto.
Qed.
Definition first_mapped {O} (g : list (option bytes) -> O) (rs : result_set) : io (option O) := on_rs (rs_first_or_none (map_next_row text_rows g)) rs.
Lemma first_rows {O} (g : list (option bytes) -> O) :
  (forall rs d, rs_completed rs = false -> reports (first_mapped g rs) d (fun v ms => exists rows a, v = Done a /\ rows_reply (c_cap d) (text_row_layout (N.of_nat (length (rs_col_defs rs)))) rows ms /\ a = option_map g (hd_error rows))) /\
  (forall rs d, rs_completed rs = true -> reports (first_mapped g rs) d (fun v ms => exists a, v = Done a /\ a = option_map g (hd_error []) /\ ms = [])).
Proof.
  apply (use_rows (fun first row => match first with None => Some (g row) | Some _ => first end) None (first_mapped g) (fun rows a => a = option_map g (hd_error rows))).
  - intros rs c. unfold first_mapped, on_rs, rs_first_or_none. rewrite while_map. reflexivity.
  - intros rows a.
    assert (K1 : forall (rows : list (list (option bytes))) r, fold_left (fun first row => match first with None => Some (g row) | Some _ => first end) rows (Some r) = Some r).
    { intros rows'. induction rows' as [|r' rows' IHr]; intros r; [reflexivity|apply IHr]. }
    destruct rows as [|r rows]; cbn [fold_left hd_error option_map]; [tauto|]. rewrite K1. tauto.
Qed.
Lemma get_col_ok {C V} (f : C -> res V) row k x : get_col f row k = Ok x <-> exists cell, nth_error row k = Some cell /\ f cell = Ok x.
Proof.
  unfold get_col. destruct (Nat.leb_spec (length row) k) as [L|L].
  - split; [discriminate|]. intros (cell & E & _). apply nth_error_None in L. congruence.
  - destruct (nth_error row k) as [cell|] eqn:E; [|apply nth_error_None in E; lia]. split; [eauto|]. intros (cell' & X & H). congruence.
Qed.
Lemma get_col_own {C V} (f : C -> res V) row k e : (forall c e, f c = Err e -> own e) -> get_col f row k = Err e -> own e.
Proof. intros O. unfold get_col. destruct (_ <=? _)%nat; [intros [= <-]; exact I|]. destruct (nth_error row k); [apply O|discriminate]. Qed.

(** ** Variables *)
Definition read_variable {V} (checks : bool) (sql : bytes) (conv : option bytes -> res V) (k : nat) : io (option V) :=
  rs <~ query_qry checks sql ;;
  o <~ on_rs (rs_first_or_none (map_next_row text_rows (fun row => get_col conv row k))) rs ;;
  match o with Some var => v <~ ilift var ;; iret (Some v) | None => iret None end.
Lemma variable_reports {V} checks sql (conv : option bytes -> res V) k c : (forall x e, conv x = Err e -> own e) ->
  accepting (c_ws c) -> checks = false \/ packet_count (blen (write_query sql)) <= 255 ->
  reports (read_variable checks sql conv k) c (variable_reply (c_cap c) conv k).
Proof.
  intros O Ac F. unfold read_variable, variable_reply.
  set (use := fun rs => o <~ on_rs (rs_first_or_none (map_next_row text_rows (fun row => get_col conv row k))) rs ;; match o with Some var => v <~ ilift var ;; iret (Some v) | None => iret None end).
  set (Out := fun (rows : list (list (option bytes))) (o : option V) => match rows with [] => o = None | row :: _ => exists x, o = Some x /\ row_value conv k row x end).
  assert (Last : forall (o : option (res V)) d, (forall e, o = Some (Err e) -> own e) ->
    reports (match o with Some var => v <~ ilift var ;; iret (Some v) | None => iret None end) d (fun v ms => ms = [] /\ match o with None => v = Done None | Some r => exists x, r = Ok x /\ v = Done (Some x) end)).
  { intros [r|] d Oo.
    - destruct r as [x|e| |].
      + eapply rp_iff; [|eapply (rp_at _ (iret (Some x)) d d); [reflexivity|reflexivity|apply rp_ret]]. intros v ms. cbv beta. split; [intros [-> ->]; eauto|]. intros (-> & y & Y & ->). injection Y as <-. auto.
      + apply rp_none; [intros [v|a b s t] T; cbn in T; [discriminate T|]; injection T as ->; exact (Oo _ eq_refl)|]. intros v ms (_ & x & X & _). discriminate X.
      + apply rp_none; [intros [v|a b s t] T; discriminate T|]. intros v ms (_ & x & X & _). discriminate X.
      + apply rp_none; [intros [v|a b s t] T; discriminate T|]. intros v ms (_ & x & X & _). discriminate X.
    - eapply rp_iff; [|apply rp_ret]. intros v ms. cbv beta. tauto. }
  pose proof (first_rows (fun row => get_col conv row k)) as [Fo Fc].
  assert (Oo : forall rs d o d', on_rs (rs_first_or_none (map_next_row text_rows (fun row => get_col conv row k))) rs d = (Ok o, d') -> forall e, o = Some (Err e) -> own e).
  { intros rs d o d' E e Eo. destruct (rs_completed rs) eqn:Cm.
    - specialize (Fc rs d Cm (Done o) (arriving d')). unfold first_mapped in Fc. rewrite E in Fc. destruct (proj1 Fc (conj eq_refl eq_refl)) as (ms & w & _ & _ & a & X & Y & _). injection X as <-. rewrite Y in Eo. discriminate Eo.
    - specialize (Fo rs d Cm (Done o) (arriving d')). unfold first_mapped in Fo. rewrite E in Fo. destruct (proj1 Fo (conj eq_refl eq_refl)) as (ms & w & _ & _ & rows & a & X & _ & Y). injection X as <-. rewrite Y in Eo.
      destruct rows as [|row rows]; [discriminate Eo|]. injection Eo as Eo. eapply get_col_own; eassumption. }
  apply (query_rows checks sql use Out c Ac F).
  - intros rs d Cm. unfold use. eapply rp_iff; [|eapply (rp_bind _ _ d _ (fun o v ms => ms = [] /\ match o with None => v = Done None | Some r => exists x, r = Ok x /\ v = Done (Some x) end)); [apply (Fo rs d Cm)|]].
    2:{ intros o d' E. apply Last. intros e. eapply Oo, E. }
    intros v ms. cbv beta. split.
    + intros [(o & ms1 & ms2 & -> & (rows & a & X & R & Y) & -> & Z)|H].
      * injection X as <-. rewrite app_nil_r. destruct rows as [|row rows]; cbn in Y; subst o; [exists [], None; split; [exact Z|]; split; [exact R|reflexivity]|]. destruct Z as (x & Gx & ->). exists (row :: rows), (Some x).
        split; [reflexivity|]. split; [exact R|]. exists x. split; [reflexivity|]. apply get_col_ok, Gx.
      * destruct v; [destruct H|]. destruct H as (rows & a & X & _). discriminate X.
    + intros (rows & a & -> & R & Oa). left. exists (option_map (fun row => get_col conv row k) (hd_error rows)), ms, []. split; [rewrite app_nil_r; reflexivity|]. split; [eauto 6|].
      split; [reflexivity|]. destruct rows as [|row rows]; cbn in *; [subst; reflexivity|]. destruct Oa as (x & -> & H). exists x. split; [apply get_col_ok, H|reflexivity].
  - intros rs d Cm. unfold use. eapply rp_iff; [|eapply (rp_bind _ _ d _ (fun o v ms => ms = [] /\ match o with None => v = Done None | Some r => exists x, r = Ok x /\ v = Done (Some x) end)); [apply (Fc rs d Cm)|]].
    2:{ intros o d' E. apply Last. intros e. eapply Oo, E. }
    intros v ms. cbv beta. split.
    + intros [(o & ms1 & ms2 & -> & (a & X & Y & ->) & -> & Z)|H].
      * injection X as <-. cbn in Y. subst o. exists None. split; [exact Z|]. split; reflexivity.
      * destruct v; [destruct H|]. destruct H as (a & X & _). discriminate X.
    + intros (a & -> & Oa & ->). left. cbn in Oa. subst a. exists None, [], []. split; [reflexivity|]. split; [exists None; auto|]. auto.
Qed.
Lemma get_var_reports {V} checks (conv : option bytes -> res V) name global c : (forall x e, conv x = Err e -> own e) ->
  accepting (c_ws c) -> checks = false \/ packet_count (blen (write_query (get_var_sql name global))) <= 255 ->
  reports (conn_get_var checks conv name global) c (variable_reply (c_cap c) conv 1).
Proof. apply variable_reports. Qed.
Lemma get_user_var_reports {V} checks (conv : option bytes -> res V) name c : (forall x e, conv x = Err e -> own e) ->
  accepting (c_ws c) -> checks = false \/ packet_count (blen (write_query (str "SELECT @" ++ name))) <= 255 ->
  reports (conn_get_user_var checks conv name) c (variable_reply (c_cap c) conv 0).
Proof. apply variable_reports. Qed.
Lemma kc_get_var {V} checks (conv : option bytes -> res V) name global : checks = false \/ packet_count (blen (write_query (get_var_sql name global))) <= 255 ->
  kc (conn_get_var checks conv name global).
Proof.
  intros F. unfold conn_get_var. apply kc_bind; [apply kc_qry, F|]. intros rs. apply kc_bind; [|intros; kc].
  intros c a d Ac. unfold on_rs, rs_first_or_none. rewrite while_map.
  apply (kc_rows text_rows (fun first row => match first with None => Some (get_col conv row 1) | Some _ => first end) (S (sched_len (c_rd c))) None rs c a d Ac).
Qed.

(** ** The binlog files *)
Definition file_of (row : list (option bytes)) (f : bytes * N) : Prop :=
  (nth_error row 0 = Some (Some (fst f)) /\ utf8_valid (fst f) = true) /\ row_value (non_null u64_from_text) 1 row (snd f).
Lemma from_utf8_own s e : from_utf8 s = Err e -> own e.
Proof. unfold from_utf8. destruct (utf8_valid s); [discriminate|]. intros [= <-]. exact I. Qed.
Lemma string_text x v : non_null string_from_text x = Ok v <-> x = Some v /\ utf8_valid v = true.
Proof.
  unfold non_null, string_from_text. destruct x as [bs|]; cbn [rbind]; [|split; [discriminate|intros [[=] _]]]. unfold from_utf8. destruct (utf8_valid bs) eqn:U; cbn [rbind].
  - split; [intros [= <-]; auto|]. intros [[= <-] _]. reflexivity.
  - split; [discriminate|]. intros [[= <-] H]. congruence.
Qed.
Lemma string_own x e : non_null string_from_text x = Err e -> own e.
Proof.
  unfold non_null, string_from_text. destruct x as [bs|]; cbn [rbind]; [|intros [= <-]; exact I]. destruct (from_utf8 bs) eqn:E; cbn [rbind]; try discriminate.
  intros [= <-]. eapply from_utf8_own, E.
Qed.
Lemma num_own w x e : non_null (text_parsed (parse_u w)) x = Err e -> own e.
Proof.
  unfold non_null, text_parsed. destruct x as [bs|]; cbn [rbind]; [|intros [= <-]; exact I]. destruct (from_utf8 bs) as [s|e0| |] eqn:E; cbn [rbind]; try discriminate.
  - destruct (parse_u w s) as [n|e1| |] eqn:P; cbn [rbind]; try discriminate. intros [= <-]. revert P. unfold parse_u. cbv zeta.
    destruct (parse_nat _) as [k|]; [destruct (k <? _)|]; intros [=]; subst; exact I.
  - intros [= <-]. eapply from_utf8_own, E.
Qed.
Lemma file_mapper row f : binlog_file_mapper row = Ok f <-> file_of row f.
Proof.
  unfold binlog_file_mapper, file_of, row_value. destruct f as [name size]. cbn [fst snd]. split.
  - destruct (get_col (non_null string_from_text) row 0) as [n| | |] eqn:E; cbn [rbind]; try discriminate. destruct (get_col (non_null u64_from_text) row 1) as [k| | |] eqn:E2; cbn [rbind]; try discriminate. intros [= -> ->].
    apply get_col_ok in E, E2. destruct E as (cell & E & H). apply string_text in H. destruct H as [-> U]. auto.
  - intros [[E U] H]. assert (X : get_col (non_null string_from_text) row 0 = Ok name) by (apply get_col_ok; eexists; split; [exact E|]; apply string_text; auto).
    assert (Y : get_col (non_null u64_from_text) row 1 = Ok size) by (apply get_col_ok; exact H). rewrite X. cbn [rbind]. rewrite Y. reflexivity.
Qed.
Lemma mapper_own row e : binlog_file_mapper row = Err e -> own e.
Proof.
  unfold binlog_file_mapper. destruct (get_col (non_null string_from_text) row 0) as [n|e0| |] eqn:E; cbn [rbind]; try discriminate.
  - destruct (get_col (non_null u64_from_text) row 1) as [k|e1| |] eqn:E2; cbn [rbind]; try discriminate. intros [= <-]. eapply get_col_own; [|exact E2]. apply num_own.
  - intros [= <-]. eapply get_col_own; [|exact E]. apply string_own.
Qed.
Section Files.
  Variable rs : result_set.
  Hypothesis open : rs_completed rs = false.
  Let layout := text_row_layout (N.of_nat (length (rs_col_defs rs))).
  Lemma files_deliver f : forall acc c, (length (arriving c) < f)%nat ->
    delivers (on_rs (binlog_files_loop f acc) rs) c (fun v ms => exists rows files, v = acc ++ files /\ rows_reply (c_cap c) layout rows ms /\ Forall2 file_of rows files).
  Proof.
    induction f as [|f IH]; intros acc c Hf; [lia|].
    apply (dl_at _ (ibind recv_msg (fun m d => match fst (next_row_msg text_rows (c_cap c) rs m) with
        | Ok (Some row) => match binlog_file_mapper row with Ok file => on_rs (binlog_files_loop f (acc ++ [file])) rs d | Err e => (Err e, d) | Panic p => (Panic p, d) | Loop => (Loop, d) end
        | Ok None => (Ok acc, d) | Err e => (Err e, d) | Panic p => (Panic p, d) | Loop => (Loop, d) end)) c c); [|reflexivity|].
    { unfold on_rs, ibind. cbn [binlog_files_loop]. unfold map_next_row, next_row. rewrite open. destruct (recv_msg c) as [[m| | |] d]; try reflexivity.
      pose proof (row_kept text_rows rs (c_cap c) m) as K. destruct (next_row_msg text_rows (c_cap c) rs m) as [r rs'] eqn:R. cbn [fst snd] in *. destruct r as [[row|]| | |]; cbn [rmap rbind option_map]; try reflexivity.
      rewrite (K row eq_refl). destruct (binlog_file_mapper row); reflexivity. }
    pose proof (row_told text_rows rs layout (text_takes rs)) as Rt.
    apply dl_recv; [intros v (rows & files & _ & (rms & m & E & _) & _); destruct rms; discriminate E|]. intros m d E Cd Sh.
    assert (Nn : forall v ms, (exists rows files, v = acc ++ files /\ rows_reply (c_cap c) layout rows (m :: ms) /\ Forall2 file_of rows files) ->
      (fst (next_row_msg text_rows (c_cap c) rs m) = Ok None /\ v = acc /\ ms = []) \/
      exists row file, fst (next_row_msg text_rows (c_cap c) rs m) = Ok (Some row) /\ binlog_file_mapper row = Ok file /\
        exists rows files, v = (acc ++ [file]) ++ files /\ rows_reply (c_cap c) layout rows ms /\ Forall2 file_of rows files).
    { intros v ms (rows & files & -> & (rms & m' & E1 & F & Ls) & Fs). destruct rms as [|x rms]; cbn [app] in E1.
      - injection E1 as <- ->. inversion F; subst. inversion Fs; subst. left. split; [apply Rt; exact Ls|]. split; [apply app_nil_r|reflexivity].
      - injection E1 as <- ->. inversion F as [|r0 ? l ? F1 F2]; subst. inversion Fs as [|? file ? files' G1 G2]; subst. right. exists r0, file. split; [apply Rt; exact F1|]. split; [apply file_mapper, G1|].
        exists l, files'. split; [rewrite <- app_assoc; reflexivity|]. split; [exists rms, m'; auto|exact G2]. }
    assert (Back : forall row file v ms, fst (next_row_msg text_rows (c_cap c) rs m) = Ok (Some row) -> binlog_file_mapper row = Ok file ->
      (exists rows files, v = (acc ++ [file]) ++ files /\ rows_reply (c_cap c) layout rows ms /\ Forall2 file_of rows files) ->
      exists rows files, v = acc ++ files /\ rows_reply (c_cap c) layout rows (m :: ms) /\ Forall2 file_of rows files).
    { intros row file v ms R M (rows & files & -> & (rms & m' & -> & F & Ls) & Fs). exists (row :: rows), (file :: files). split; [rewrite <- app_assoc; reflexivity|].
      split; [exists (m :: rms), m'; split; [reflexivity|]; split; [constructor; [apply Rt in R; exact R|exact F]|exact Ls]|]. constructor; [apply file_mapper, M|exact Fs]. }
    destruct (fst (next_row_msg text_rows (c_cap c) rs m)) as [[row|]|e| |] eqn:R.
    - destruct (binlog_file_mapper row) as [file|e| |] eqn:M.
      + eapply dl_at; [reflexivity|reflexivity|]. eapply dl_iff; [|apply IH; lia]. intros v ms. cbv beta. rewrite Cd. split; [apply (Back row file); auto|].
        intros H. destruct (Nn v ms H) as [(X & _)|(row' & file' & X & Y & Z)]; [discriminate X|]. injection X as <-. rewrite M in Y. injection Y as <-. exact Z.
      + apply dl_none; [discriminate|]. intros v ms H. destruct (Nn v ms H) as [(X & _)|(row' & file' & X & Y & Z)]; [discriminate X|]. injection X as <-. congruence.
      + apply dl_none; [discriminate|]. intros v ms H. destruct (Nn v ms H) as [(X & _)|(row' & file' & X & Y & Z)]; [discriminate X|]. injection X as <-. congruence.
      + apply dl_none; [discriminate|]. intros v ms H. destruct (Nn v ms H) as [(X & _)|(row' & file' & X & Y & Z)]; [discriminate X|]. injection X as <-. congruence.
    - apply (dl_at _ (iret acc) d d); [reflexivity|reflexivity|]. eapply dl_iff; [|apply dl_ret]. intros v ms. cbv beta. split.
      + intros [-> ->]. exists [], []. split; [symmetry; apply app_nil_r|]. split; [|constructor]. exists [], m. split; [reflexivity|]. split; [constructor|]. apply Rt in R. exact R.
      + intros H. destruct (Nn v ms H) as [(_ & -> & ->)|(row' & file' & X & Y & Z)]; [auto|discriminate X].
    - apply dl_none; [discriminate|]. intros v ms H. destruct (Nn v ms H) as [(X & _)|(row' & file' & X & Y & Z)]; discriminate X.
    - apply dl_none; [discriminate|]. intros v ms H. destruct (Nn v ms H) as [(X & _)|(row' & file' & X & Y & Z)]; discriminate X.
    - apply dl_none; [discriminate|]. intros v ms H. destruct (Nn v ms H) as [(X & _)|(row' & file' & X & Y & Z)]; discriminate X.
  Qed.
End Files.
Lemma files_own f : forall acc rs c e, fst (on_rs (binlog_files_loop f acc) rs c) = Err e -> own e.
Proof.
  induction f as [|f IH]; intros acc rs c e; unfold on_rs; cbn [binlog_files_loop]; [discriminate|]. unfold map_next_row at 1.
  destruct (next_row text_rows rs c) as [[[[row|]|e0| |] rs'] c'] eqn:E; cbn [rmap rbind option_map fst]; try discriminate.
  - destruct (binlog_file_mapper row) as [file|e1| |] eqn:M; cbn [fst]; try discriminate; [apply IH|]. intros [= <-]. eapply mapper_own, M.
  - intros [= <-]. eapply next_own; [|exact E]. intros. apply pl_text_row.
Qed.
Lemma files_reports checks c : accepting (c_ws c) -> reports (conn_binlog_files checks) c (files_reply (c_cap c)).
Proof.
  intros Ac. apply (query_rows checks (str "SHOW MASTER LOGS") (fun rs c => on_rs (binlog_files_loop (S (sched_len (c_rd c))) []) rs c) (fun rows files => Forall2 file_of rows files) c Ac).
  - right. vm_compute. discriminate.
  - intros rs d Cm. apply (rp_rounds (fun f => on_rs (binlog_files_loop f []) rs)). intros f Lf.
    eapply rp_iff; [|apply rp_of_dl; [apply (files_deliver rs Cm f [] d Lf)|intros e; apply files_own]]. intros v ms. cbv beta. cbn [app]. split.
    + intros (a & -> & rows & files & -> & R & F). eauto.
    + intros (rows & a & -> & R & F). eauto 8.
  - intros rs d Cm. eapply (rp_at _ (iret []) d d); [unfold on_rs; cbn [binlog_files_loop]; unfold map_next_row, next_row; rewrite Cm; reflexivity|reflexivity|].
    eapply rp_iff; [|apply rp_ret]. intros v ms. cbv beta. split.
    + intros [-> ->]. exists []. auto.
    + intros (a & -> & F & ->). inversion F. auto.
Qed.

(** ** One exchange after another *)
Lemma rp_then {A B} (m : io A) (f : A -> io B) c L1 L2 : kc m -> accepting (c_ws c) -> reports m c L1 ->
  (forall a d, accepting (c_ws d) -> c_cap d = c_cap c -> reports (f a) d (L2 a)) -> reports (ibind m f) c (and_then L1 L2).
Proof.
  intros K Ac R F. eapply rp_iff; [|eapply (rp_bind m f c L1 L2 R)]; [|intros a d E; destruct (K _ _ _ Ac E); auto].
  intros v ms. unfold and_then. split; (intros [H|H]; [left; exact H|right]).
  - destruct v as [|code mk st msg]; [destruct H|]. exists code, mk, st, msg. auto.
  - destruct H as (code & mk & st & msg & -> & H). exact H.
Qed.
Lemma exec_close_reports checks ps params c : checks = false \/ packet_count (blen (write_stmt_execute (ps_stmt_id ps) params)) <= 255 -> accepting (c_ws c) -> reports (stmt_exec_close checks ps params) c (exec_reply (c_cap c)).
Proof.
  intros F Ac v rest. rewrite <- (stmt_exec_reports checks ps params c Ac F v rest).
  assert (H : agree [] (stmt_exec checks ps params c) (stmt_exec checks ps params c)).
  { apply steady_stmt_exec. split; [|symmetry; apply app_nil_r]. repeat split; auto. }
  assert (A : accepting (c_ws (snd (stmt_exec checks ps params c)))).
  { destruct H as [(_ & H & _)|(_ & H & _)]; [|exact H]. destruct H as (_ & _ & _ & _ & H & _). exact H. }
  unfold stmt_exec_close. destruct (stmt_exec checks ps params c) as [r d]. cbn [fst snd] in *.
  destruct (close_ok checks ps d A) as (d' & E & _). pose proof (send_keeps checks (write_stmt_close (ps_stmt_id ps)) true d (Ok tt) d' E) as K. rewrite E. destruct r as [[]|e| |]; cbn [fst snd]; rewrite ?K; reflexivity.
Qed.
Lemma set_reports checks sql params c : checks = false \/ packet_count (blen (write_stmt_prepare sql)) <= 255 -> (forall id, checks = false \/ packet_count (blen (write_stmt_execute id params)) <= 255) -> accepting (c_ws c) -> reports (stmt <~ stmt_prepare checks sql ;; stmt_exec_close checks stmt params) c (set_reply (c_cap c)).
Proof.
  intros F G Ac. apply rp_then; [apply kc_prepare; auto|exact Ac|apply prepare_reports; auto|]. intros ps d Ad <-. apply exec_close_reports; auto.
Qed.
Lemma kc_set checks sql params : checks = false \/ packet_count (blen (write_stmt_prepare sql)) <= 255 -> (forall id, checks = false \/ packet_count (blen (write_stmt_execute id params)) <= 255) -> kc (stmt <~ stmt_prepare checks sql ;; stmt_exec_close checks stmt params).
Proof. intros F G. apply kc_bind; [apply kc_prepare; auto|]. intros. apply kc_exec_close. auto. Qed.
Lemma required_reports {V} (conv : option bytes -> res V) name missing c : (forall x e, conv x = Err e -> own e) -> own missing -> accepting (c_ws c) ->
  reports (get_required false conv name missing) c (required_reply (c_cap c) conv).
Proof.
  intros O Om Ac. unfold get_required. eapply rp_iff; [|eapply (rp_bind _ _ c _ (fun o v ms => ms = [] /\ exists x, o = Some x /\ v = Done x)); [apply (get_var_reports false conv name true c O Ac (or_introl eq_refl))|]].
  - intros v ms. unfold required_reply. split.
    + intros [(o & ms1 & ms2 & -> & H & -> & x & -> & ->)|H].
      * rewrite app_nil_r. left. eauto.
      * destruct v as [|code mk st msg]; [destruct H|]. right. destruct H as [(rows & o & X & _)|H]; [discriminate X|]. apply (refusal_any _ _ _ _ _ _ H).
    + intros [(x & -> & H)|H].
      * left. exists (Some x), ms, []. split; [symmetry; apply app_nil_r|]. split; [exact H|]. split; [reflexivity|]. eauto.
      * right. destruct v as [|code mk st msg]; [destruct H as (p & m & _ & _ & _ & _ & _ & X); discriminate X|]. right. apply (refusal_any _ _ _ _ _ _ H).
  - intros [x|] d E.
    + eapply rp_iff; [|apply rp_ret]. intros v ms. cbv beta. split; [intros [-> ->]; eauto|]. intros (-> & y & [= <-] & ->). auto.
    + apply rp_none; [intros [v|a b s t] T; cbn in T; [discriminate T|]; injection T as ->; exact Om|]. intros v ms (_ & x & X & _). discriminate X.
Qed.
Lemma kc_required {V} (conv : option bytes -> res V) name missing : kc (get_required false conv name missing).
Proof. unfold get_required. apply kc_bind; [apply kc_get_var; auto|]. intros [x|]; kc. Qed.

(** ** Requesting a stream *)
Lemma pl_event_type n : plain (plift (event_type_of n)).
Proof. apply pl_lift. intros e. unfold event_type_of. repeat match goal with |- context [match ?x with _ => _ end] => destruct x end; intros [=]; subst; exact I. Qed.
Lemma pl_event_header : plain read_event_header.
Proof. pose proof pl_event_type. unfold read_event_header, read_event_header_v1. pl; auto. Qed.
Lemma pl_csub a b : plain (plift (csub a b)).
Proof. apply pl_lift. intros e. unfold csub. destruct (_ <? _) || destruct (_ <=? _); intros [=]. Qed.
Lemma pl_fde : plain read_fde.
Proof.
  pose proof pl_csub. unfold read_fde. apply pl_bind.
  { unfold read_start_data. pl. intros bs e. apply (pl_until x00 false). }
  intros st. apply pl_bind; [apply pl_u8|]. intros hl. apply pl_bind.
  { intros bs e. cbn [fst]. unfold bget. destruct (nth_error bs _); discriminate. }
  intros own. apply pl_bind; [auto|]. intros k. apply pl_bind; [intros bs e [=]|]. intros rem. destruct (rem =? k); [pl|].
  apply pl_bind; [|intros; pl]. intros bs e. unfold split_to. destruct (_ <? _); discriminate.
Qed.
Lemma pl_fde_bytes : plain from_fde_bytes.
Proof.
  pose proof pl_event_header. unfold from_fde_bytes. apply pl_bind; [assumption|]. intros h. apply pl_bind; [apply pl_csub|]. intros n. apply pl_bind; [apply pl_len|]. intros raw.
  pose proof (pl_fde raw) as P. destruct (read_fde raw) as [r more]. cbn [fst] in P. apply pl_bind; [apply pl_lift; exact P|]. intros data. apply pl_bind; [|intros; apply pl_ret].
  destruct (_ =? 1); [|apply pl_ret]. destruct (_ <? 4); [apply pl_fail; exact I|]. apply pl_bind; [|intros; apply pl_ret]. apply pl_lift. intros e.
  apply (pl_map le_val (take 4)); apply pl_take.
Qed.
Lemma accepts_first : takes_message from_fde_bytes (fun o w => fields [fun w => exists h, first_event_layout h o w; leftover] w).
Proof.
  intros bs o. destruct (from_fde_bytes bs) as [r more] eqn:E. cbn [fst]. split.
  - intros ->. apply open_event in E. destruct E as (h & w & -> & H). apply fields_cons_inv. exists w, more. split; [reflexivity|]. split; [eauto|]. apply fields_one. exact I.
  - intros H. apply fields_cons_inv in H. destruct H as (w & ws & -> & (h & H) & _). assert (X : from_fde_bytes (w ++ ws) = (Ok o, ws)) by (apply open_event; eauto). congruence.
Qed.
Lemma rotate_told checksum r : check_rotate checksum r = Ok tt <-> rotate_event checksum r.
Proof.
  unfold check_rotate, rotate_event. destruct (read_event_header r) as [x body] eqn:E. split.
  - destruct x as [h| | |]; cbn [rbind]; try discriminate. apply accepts_header in E. destruct E as (hw & -> & Hh).
    destruct (h_type h) eqn:T; try discriminate. intros H.
    assert (K : exists dw trailer d, body = dw ++ trailer /\ length trailer = (if checksum then 4 else 0)%nat /\ fst (read_rotate dw) = Ok d).
    { destruct checksum.
      - unfold csub in H. destruct (N.ltb_spec (blen body) 4) as [L|L] || destruct (N.leb_spec 4 (blen body)) as [L|L]; cbn [rmap rbind] in H; try discriminate.
        unfold split_at in H. cbn [fst] in H. exists (firstn (N.to_nat (blen body - 4)) body), (skipn (N.to_nat (blen body - 4)) body).
        destruct (fst (read_rotate _)) as [d| | |] eqn:R; try discriminate. exists d. split; [symmetry; apply firstn_skipn|]. split; [rewrite skipn_length; unfold blen in *; lia|reflexivity].
      - cbn [rbind] in H. exists body, []. destruct (fst (read_rotate body)) as [d| | |] eqn:R; try discriminate. exists d. split; [symmetry; apply app_nil_r|]. auto. }
    destruct K as (dw & trailer & d & -> & L & R). apply accepts_rotate in R. exists h, hw, d, dw, trailer. auto 6.
  - intros (h & hw & d & dw & trailer & -> & Hh & T & R & L). assert (X : read_event_header (hw ++ dw ++ trailer) = (Ok h, dw ++ trailer)) by (apply accepts_header; eauto).
    rewrite E in X. injection X as -> ->. cbn [rbind]. rewrite T. apply accepts_rotate in R. destruct checksum.
    + assert (Lb : blen (dw ++ trailer) = blen dw + 4) by (unfold blen; rewrite app_length, L; lia). rewrite Lb. unfold csub.
      destruct (N.ltb_spec (blen dw + 4) 4) as [Lx|Lx] || destruct (N.leb_spec 4 (blen dw + 4)) as [Lx|Lx]; try lia. cbn [rmap rbind]. unfold split_at. cbn [fst].
      replace (N.to_nat (blen dw + 4 - 4)) with (length dw) by (unfold blen; lia). rewrite firstn_app, Nat.sub_diag, firstn_all, firstn_O, app_nil_r. rewrite R. reflexivity.
    + destruct trailer; [|discriminate L]. rewrite app_nil_r. cbn [rbind]. rewrite R. reflexivity.
Qed.
Lemma rotate_own checksum r e : check_rotate checksum r = Err e -> own e.
Proof.
  unfold check_rotate. pose proof (pl_event_header r) as P. destruct (read_event_header r) as [x body]. cbn [fst] in P. destruct x as [h|e0| |]; cbn [rbind]; try discriminate; [|intros [= <-]; apply P; reflexivity].
  assert (R : forall b e, rmap (fun _ => tt) (fst (read_rotate b)) = Err e -> own e).
  { intros b e1. assert (Pr : plain read_rotate) by (unfold read_rotate; pl). specialize (Pr b). destruct (fst (read_rotate b)); cbn [rmap rbind]; try discriminate. intros [= <-]. apply Pr. reflexivity. }
  destruct (h_type h); try (intros [= <-]; exact I). destruct checksum; [|apply R].
  unfold csub. destruct (_ <? _) || destruct (_ <=? _); cbn [rmap rbind]; try discriminate; apply R.
Qed.
Lemma fde_reports o c : reports (recv_fde o) c (fun v ms => exists b d first, ms = [b :: d] /\ fields [fun w => exists h, first_event_layout h first w; leftover] d /\
  v = Done (mk_stream (fst first) (bo_validate o) false (bo_non_block o))).
Proof.
  unfold recv_fde. apply rp_recv; [intros v (b & d & first & X & _); discriminate X|]. intros [|b m] d E Cd _; cbn [read_u8].
  { apply rp_none; [intros v; destruct v; discriminate|]. intros v ms (b & d' & first & X & _). discriminate X. }
  apply (rp_parse _ _ _ _ _ _ accepts_first pl_fde_bytes).
  - intros [pv4 sum] L. eapply rp_iff; [|apply rp_ret]. intros v ms. cbv beta. split.
    + intros [-> ->]. exists b, m, (pv4, sum). auto.
    + intros (b' & d' & first & X & L' & ->). injection X as <- <- ->. split; [|reflexivity]. apply accepts_first in L, L'. rewrite L in L'. injection L' as <-. reflexivity.
  - intros v ms (b' & d' & first & X & L & _). injection X as <- <- _. exists first. exact L.
Qed.
Lemma start_reports checksum o c : reports (recv_stream_start checksum o) c (start_reply (c_cap c) checksum o).
Proof.
  unfold recv_stream_start. apply rp_recv.
  { intros v [(m & X & _)|[(r & b & d & first & X & _)|H]]; [discriminate X|discriminate X|exact (no_refusal _ _ H)]. }
  intros m d E Cd _. rewrite <- Cd. destruct m as [|b m].
  { apply rp_none; [intros v; destruct v; discriminate|]. intros v ms [(m & X & (w & S) & _)|[(r & b & d' & first & X & _)|H]].
    - injection X as <- _. discriminate S.
    - discriminate X.
    - apply refusal_start in H. destruct H as [(w & S) _]. discriminate S. }
  destruct (starts_dec xff b m) as [F1 F2]. change (b2n xff) with 255 in *. destruct (b2n b =? 255).
  { specialize (F1 eq_refl). eapply rp_iff; [|apply rp_server, F1]. intros v ms. cbv beta. split; [intros H; right; right; exact H|].
    intros [(m' & X & S & _)|[(r & b' & d' & first & X & _)|H]]; [|destruct F1 as (w & F1); congruence|exact H]. injection X as <- _. pose proof (starts_same _ _ _ F1 S). discriminate. }
  specialize (F2 eq_refl). destruct (starts_dec xfe b m) as [G1 G2]. change (b2n xfe) with 254 in *. destruct (b2n b =? 254).
  { specialize (G1 eq_refl). apply (rp_now (fun c => _ <~ parse (read_eof_packet (c_cap c)) (b :: m) ;; iret (mk_stream (mk_parser [] false) (bo_validate o) true (bo_non_block o)))).
    apply (rp_parse _ _ _ _ _ _ (accepts_eof_message (c_cap d)) (pl_eof _)).
    - intros p Lp. eapply rp_iff; [|apply rp_ret]. intros v ms. cbv beta. split.
      + intros [-> ->]. left. exists (b :: m). split; [reflexivity|]. split; [exact G1|]. split; [exists p; exact Lp|reflexivity].
      + intros [(m' & X & S & L & ->)|[(r & b' & d' & first & X & _)|H]].
        * injection X as _ ->. auto.
        * destruct G1 as (w & G1). congruence.
        * apply refusal_start in H. tauto.
    - intros v ms [(m' & X & S & (p & L) & _)|[(r & b' & d' & first & X & _)|H]].
      + injection X as <- _. exists p. exact L.
      + destruct G1 as (w & G1). congruence.
      + apply refusal_start in H. tauto. }
  specialize (G2 eq_refl). clear F1 G1.
  destruct (N.eqb_spec (b2n b) 0) as [Z|Z].
  - assert (b = x00) by (apply b2n_inj; exact Z). subst b. clear Z.
    assert (R : forall v ms, start_reply (c_cap d) checksum o v ((x00 :: m) :: ms) <-> rotate_event checksum m /\ exists b' d' first, ms = [b' :: d'] /\
      fields [fun w => exists h, first_event_layout h first w; leftover] d' /\ v = Done (mk_stream (fst first) (bo_validate o) false (bo_non_block o))).
    { intros v ms. split.
      - intros [(m' & X & S & _)|[(r & b' & d' & first & X & Ro & L & ->)|H]].
        + injection X as <- _. contradiction.
        + injection X as <- ->. eauto 10.
        + apply refusal_start in H. tauto.
      - intros (Ro & b' & d' & first & -> & L & ->). right. left. exists m, b', d', first. auto. }
    destruct (check_rotate checksum m) as [[]|e| |] eqn:C.
    + eapply (rp_at _ (recv_fde o) d d); [reflexivity|reflexivity|]. eapply rp_iff; [|apply fde_reports]. intros v ms. cbv beta. rewrite R. apply rotate_told in C. tauto.
    + apply rp_none; [intros [v|a b' s t] T; cbn in T; [discriminate T|]; injection T as ->; exact (rotate_own _ _ _ C)|]. intros v ms H. apply R in H. destruct H as [H _]. apply rotate_told in H. congruence.
    + apply rp_none; [intros [v|a b' s t] T; discriminate T|]. intros v ms H. apply R in H. destruct H as [H _]. apply rotate_told in H. congruence.
    + apply rp_none; [intros [v|a b' s t] T; discriminate T|]. intros v ms H. apply R in H. destruct H as [H _]. apply rotate_told in H. congruence.
  - apply rp_none; [intros [v|a b' s t] T; discriminate T|]. intros v ms [(m' & X & S & _)|[(r & b' & d' & first & X & _)|H]].
    + injection X as <- _. contradiction.
    + injection X as -> _ _. apply Z. reflexivity.
    + apply refusal_start in H. tauto.
Qed.
Lemma stream_reports uuid random_id o c : accepting (c_ws c) -> reports (request_stream false uuid random_id o) c (stream_reply (c_cap c) o).
Proof.
  intros Ac. unfold request_stream, stream_reply. cbv zeta.
  apply rp_then; [apply kc_required|exact Ac|apply required_reports; [apply num_own|exact I|exact Ac]|]. intros id c1 A1 E1. rewrite <- E1. clear E1.
  apply rp_then; [apply kc_set; auto|exact A1|apply set_reports; auto|]. intros u2 c2 A2 E2. rewrite <- E2. clear E2.
  apply rp_then; [apply kc_required|exact A2|apply required_reports; [apply string_own|exact I|exact A2]|]. intros alg c3 A3 E3. rewrite <- E3. clear E3.
  apply rp_then; [apply kc_set; auto|exact A3|apply set_reports; auto|]. intros u4 c4 A4 E4. rewrite <- E4. clear E4.
  apply rp_then; [apply kc_required|exact A4|apply required_reports; [apply string_own|exact I|exact A4]|]. intros mode c5 A5 E5. rewrite <- E5. clear E5.
  apply rp_then; [apply kc_required|exact A5|apply required_reports; [apply string_own|exact I|exact A5]|]. intros su c6 A6 E6. rewrite <- E6. clear E6.
  apply rp_then; [apply kc_set; auto|exact A6|apply set_reports; auto|]. intros u7 c7 A7 E7. rewrite <- E7. clear E7.
  apply rp_then; [apply kc_bind; [apply kc_send; auto|intros; apply kc_com]|exact A7|apply rp_sent; [exact A7|auto|]; intros d Cd; rewrite <- Cd; apply com_reports|].
  intros u8 c8 A8 E8. rewrite <- E8. clear E8.
  apply rp_sent; [exact A8|auto|]. intros d Cd. rewrite <- Cd. eapply rp_iff; [|apply (start_reports (beqb alg (str "CRC32")) o d)]. intros v ms. cbv beta.
  assert (B : beqb alg (str "CRC32") = true <-> alg = str "CRC32") by (destruct (beqb_spec alg (str "CRC32")); split; intros; try reflexivity; try assumption; try discriminate; contradiction). split.
  - intros H. exists (beqb alg (str "CRC32")). auto.
  - intros (cs & I1 & H). replace (beqb alg (str "CRC32")) with cs; [exact H|]. destruct cs, (beqb alg (str "CRC32")); try reflexivity; [symmetry; apply B, I1; reflexivity|apply I1, B; reflexivity].
Qed.
Lemma pl_parse_event crc p validate : plain (parse_event crc p validate).
Proof.
  pose proof pl_event_header. pose proof pl_csub. unfold parse_event. apply pl_bind.
  - destruct (_ && _); [|apply pl_ret]. unfold check_checksum.
    assert (Pk : forall A (q : parser A), plain q -> plain (ppeek q)) by (intros A q P bs e; unfold ppeek; cbn [fst]; apply P).
    apply pl_bind; [apply Pk; assumption|]. intros h. apply pl_bind; [apply Pk, pl_len|]. intros raw. apply pl_bind; [auto|]. intros n. unfold split_at. cbv beta iota.
    apply pl_bind; [apply pl_lift; intros e; apply (pl_map le_val (take 4)), pl_take|]. intros x. destruct (_ =? _); [apply pl_ret|apply pl_fail; exact I].
  - intros _. apply pl_bind; [assumption|]. intros h. apply pl_bind; [apply pl_csub|]. intros n. apply pl_bind; [apply pl_len|]. intros data. apply pl_bind.
    + destruct (p_checksum p); [|apply pl_ret]. apply pl_bind; [auto|]. intros. apply pl_ret.
    + intros d. destruct (event_kind_of _); apply pl_ret.
Qed.
Lemma event_own crc s c e : fst (next_event crc s c) = Err e -> own e.
Proof.
  unfold next_event. destruct (s_completed s); [discriminate|]. generalize (S (sched_len (c_rd c))). intros f. revert c.
  induction f as [|f IH]; intros c; cbn [next_event_loop]; [discriminate|]. unfold ibind at 1. destruct (recv_and_parse_event crc s c) as [r d] eqn:E.
  assert (O : forall e, r = Err e -> own e).
  { revert E. unfold recv_and_parse_event, ibind at 1. destruct (recv_msg c) as [[m|e1| |] d1] eqn:R; try (intros [= <- _]; discriminate).
    - destruct m as [|b m]; [intros [= <- _] e2 [= <-]; exact I|]. destruct (_ && _); [intros [= <- _]; discriminate|]. destruct (negb _); [intros [= <- _] e2 [= <-]; exact I|].
      unfold ibind, parse, ilift. pose proof (pl_parse_event crc (s_pv4 s) (s_validate s) m) as P. destruct (fst (parse_event crc (s_pv4 s) (s_validate s) m)); intros [= <- _]; try discriminate.
      intros e2 [= <-]. apply P. reflexivity.
    - intros [= <- _] e2 [= <-]. eapply recv_own, R. }
  destruct r as [[ev| |]|e1| |]; try discriminate; [apply IH|]. cbn [fst]. intros [= <-]. apply O. reflexivity.
Qed.
