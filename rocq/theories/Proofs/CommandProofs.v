(** Proofs about executing statements and commands on a connection *)
From Coq Require Import Strings.String.
From Verif Require Import Model.Base Model.BytesParser Model.LenEnc Model.Utf8 Model.Flags Model.Packet
  Model.Conn Model.Auth Model.Cmd Model.Col Model.Row Model.Stmt Model.Extract Model.Session
  Spec.Nums Spec.Codec Spec.LenEncSpec Spec.Wire Spec.Packets Spec.Values Spec.Framing Spec.Session Spec.Commands
  Spec.Execute Spec.ExtractSpec Spec.AuthSpec Spec.ResultSets
  Proofs.BaseLemmas Proofs.BytesParserProofs Proofs.CodecProofs Proofs.LenEncProofs Proofs.WireLemmas
  Proofs.ConnProofs Proofs.PacketProofs Proofs.CmdProofs Proofs.ValueProofs Proofs.AuthProofs Proofs.ExecuteProofs
  Proofs.ExtractProofs Proofs.SessionProofs.
Open Scope N_scope.

(** ** answers *)
Definition answers {A} (cap : N) (k : io A) (ps : list bytes) (r : res A) : Prop :=
  forall c d, c_cap c = cap -> awaits c ps d ->
  exists c', k c = (r, c') /\ delivered (c_rd c') = d /\ same_but_read c c'.

Definition fits (checks : bool) (m : bytes) : Prop := checks = false \/ packet_count (blen m) <= 255.
Lemma fits_small checks m : N.of_nat (length m) < 2 ^ 32 - 2 ^ 25 -> fits checks m.
Proof.
  intros H. right. unfold packet_count, full, blen. change (2 ^ 24 - 1) with 16777215.
  change (2 ^ 32 - 2 ^ 25) with 4261412864 in H. lia.
Qed.
Lemma fits_arg checks s m : sendable checks s -> (length m <= length s + 1000)%nat -> fits checks m.
Proof.
  intros [H|H] L; [left; exact H|]. apply fits_small. change (2 ^ 31) with 2147483648 in H.
  change (2 ^ 32 - 2 ^ 25) with 4261412864. lia.
Qed.

Lemma send_ok checks c m : accepting (c_ws c) -> fits checks m ->
  exists c', send_msg checks m true c = (Ok tt, c') /\ commanded c c' [m] /\ accepting (c_ws c') /\ same_but_write c c'.
Proof.
  intros Ha Hf. destruct (send_msg_spec checks c m true Ha ltac:(reflexivity) Hf)
    as (seqs & w & c' & E & W & O & Q & _ & _ & A & S).
  exists c'. splits; auto. exists w. split; [|exact O]. rewrite <- (app_nil_r w). econstructor; [exact W|exact Q|constructor].
Qed.
Lemma commands_app ms w : commands_wire ms w -> forall ms' w', commands_wire ms' w' -> commands_wire (ms ++ ms') (w ++ w').
Proof. induction 1; intros; cbn [app]; [assumption|]. rewrite <- app_assoc. econstructor; eauto. Qed.
Lemma commanded_trans a b c m1 m2 : commanded a b m1 -> commanded b c m2 -> commanded a c (m1 ++ m2).
Proof.
  intros (w1 & H1 & E1) (w2 & H2 & E2). exists (w1 ++ w2). split; [auto using commands_app|].
  rewrite E2, E1, app_assoc. reflexivity.
Qed.
Lemma commanded_read a b c m : commanded a b m -> same_but_read b c -> commanded a c m.
Proof. intros (w1 & H1 & E1) (_ & S & _). exists w1. split; auto. congruence. Qed.

Lemma conv_send {A} cap checks m (rq : bytes -> Prop) (k : io A) ps r : fits checks m -> rq m -> answers cap k ps r ->
  conversation cap (_ <~ send_msg checks m true ;; k) [rq] ps r.
Proof.
  intros Hf Hq Hk c d Hc Ha Hw. destruct (send_ok checks c m Ha Hf) as (c1 & E1 & O1 & A1 & S1).
  pose proof (awaits_write _ _ _ _ Hw S1) as Hw1. destruct S1 as (R1 & C1 & T1).
  destruct (Hk c1 d ltac:(congruence) Hw1) as (c2 & E2 & D2 & S2).
  exists c2, [m]. rewrite (ibind_ok _ _ _ _ _ E1). pose proof (commanded_read _ _ _ _ O1 S2) as O2.
  destruct S2 as (W2 & _ & C2 & T2). splits; auto; try congruence.
Qed.
Lemma conv_write {A} cap m reqs ps (r : res A) : conversation cap m reqs ps r ->
  forall c d, c_cap c = cap -> accepting (c_ws c) -> awaits c ps d -> exists c', m c = (r, c').
Proof. intros H c d H1 H2 H3. destruct (H c d H1 H2 H3) as (c' & ms & E & _). eauto. Qed.

(** sequencing of conversations *)
Lemma messages_wire_app ps : forall qs w, messages_wire (ps ++ qs) w ->
  exists w1 w2, messages_wire ps w1 /\ messages_wire qs w2 /\ w = w1 ++ w2.
Proof.
  induction ps as [|p ps IH]; intros qs w H; cbn [app] in H.
  - exists [], w. splits; auto. constructor.
  - inversion H as [|p0 w0 ps0 ws0 seqs H1 H2]; subst. destruct (IH _ _ H2) as (w1 & w2 & A & B & ->).
    exists (w0 ++ w1), w2. splits; auto; [econstructor; eauto|apply app_assoc].
Qed.
Lemma conv_bind {A B} cap (m : io A) (k : A -> io B) q1 q2 ps1 ps2 a r :
  conversation cap m q1 ps1 (Ok a) -> conversation cap (k a) q2 ps2 r ->
  conversation cap (x <~ m ;; k x) (q1 ++ q2) (ps1 ++ ps2) r.
Proof.
  intros H1 H2 c d Hc Ha (w & Hw & Hd). destruct (messages_wire_app _ _ _ Hw) as (w1 & w2 & W1 & W2 & ->).
  rewrite <- app_assoc in Hd.
  destruct (H1 c (w2 ++ d) Hc Ha ltac:(exists w1; auto)) as (c1 & ms1 & E1 & O1 & F1 & D1 & A1 & C1 & T1).
  destruct (H2 c1 d C1 A1 ltac:(exists w2; auto)) as (c2 & ms2 & E2 & O2 & F2 & D2 & A2 & C2 & T2).
  exists c2, (ms1 ++ ms2). rewrite (ibind_ok _ _ _ _ _ E1). splits; eauto using commanded_trans, Forall2_app. congruence.
Qed.

(** ** exec *)
Section ExecLoop.
  Variable loop : nat -> io unit.
  Hypothesis loop_eq : forall fuel, loop (S fuel) =
      (msg <~ recv_msg ;;
      match msg with
      | [] => ipanic PIndex
      | b :: _ =>
        if b2n b =? 0xff then server_error msg
        else if b2n b =? 0x00 then
          fun c => (_ <~ parse (read_ok_packet (c_cap c)) msg ;; iret tt) c
        else loop fuel
      end).

  Lemma loop_skip m skip ps : forall fuel c d, Forall skipped skip -> awaits c (skip ++ m :: ps) d -> (length skip < fuel)%nat ->
    exists fuel' c1 c2, loop fuel c = loop (S fuel') c1 /\ recv_msg c1 = (Ok m, c2) /\ awaits c2 ps d /\ same_but_read c c2.
  Proof.
    induction skip as [|s skip IH]; intros fuel c d Hs Ha L; (destruct fuel as [|fuel]; [cbn [length] in L; lia|]); cbn [app] in Ha;
      destruct (awaits_cons _ _ _ _ Ha) as (c1 & E1 & A1 & S1).
    - exists fuel, c, c1. auto.
    - inversion Hs as [|? ? (b & rest & -> & B1 & B2) Hs']; subst.
      destruct (IH fuel c1 d Hs' A1 ltac:(cbn [length] in L; lia)) as (f' & c2 & c3 & E2 & R2 & A2 & S2).
      exists f', c2, c3. splits; eauto using sbr_trans. rewrite loop_eq, (ibind_ok _ _ _ _ _ E1).
      destruct (N.eqb_spec (b2n b) 255) as [E|_]; [destruct B2; apply b2n_inj; exact E|].
      destruct (N.eqb_spec (b2n b) 0) as [E|_]; [destruct B1; apply b2n_inj; exact E|]. exact E2.
  Qed.
  Lemma exec_fuel c (skip : list bytes) m ps d : awaits c (skip ++ m :: ps) d -> (length skip < S (sched_len (c_rd c)))%nat.
  Proof. intros H. apply awaits_fuel in H. rewrite app_length in H. lia. Qed.

  Lemma loop_ok cap skip m ps : Forall skipped skip -> ok_message cap 0 m -> 
    forall c d, c_cap c = cap -> awaits c (skip ++ m :: ps) d ->
    exists c', loop (S (sched_len (c_rd c))) c = (Ok tt, c') /\ awaits c' ps d /\ same_but_read c c'.
  Proof.
    intros Hs Hm c d Hc Ha.
    destruct (loop_skip m skip ps _ c d Hs Ha (exec_fuel _ _ _ _ _ Ha)) as (f & c1 & c2 & E & R & A & S).
    exists c2. splits; auto. rewrite E, loop_eq, (ibind_ok _ _ _ _ _ R).
    destruct (ok_message_reads _ 0 _ eq_refl Hm) as (p & Ep). destruct (ok_message_head _ _ _ Hm) as (r & Er).
    rewrite Er in *. cbn [b2n n2b N.eqb]. cbv beta iota.
    change (b2n (n2b 0) =? 255) with false. change (b2n (n2b 0) =? 0) with true. cbv iota.
    unfold parse. rewrite (sbr_cap _ _ S), Hc, Ep. reflexivity.
  Qed.
  Lemma loop_err cap skip m e ps : Forall skipped skip -> err_message cap m e ->
    forall c d, c_cap c = cap -> awaits c (skip ++ m :: ps) d ->
    exists c', loop (S (sched_len (c_rd c))) c = (Err e, c') /\ awaits c' ps d /\ same_but_read c c'.
  Proof.
    intros Hs Hm c d Hc Ha.
    destruct (loop_skip m skip ps _ c d Hs Ha (exec_fuel _ _ _ _ _ Ha)) as (f & c1 & c2 & E & R & A & S).
    exists c2. splits; auto. rewrite E, loop_eq, (ibind_ok _ _ _ _ _ R).
    destruct (err_message_reads _ _ _ Hm) as (p & Ep & Ee). destruct (err_message_head _ _ _ Hm) as (r & Er).
    rewrite Er in *. change (b2n xff =? 255) with true. cbv iota.
    unfold server_error, parse. rewrite (sbr_cap _ _ S), Hc, Ep. cbn [fst]. unfold ibind, ilift, ierr. rewrite Ee. reflexivity.
  Qed.
  (** success only after an OK packet *)
  Lemma loop_sound : forall fuel c c', loop fuel c = (Ok tt, c') -> loop 0%nat = ilift Loop ->
    exists skip m p, Forall skipped skip /\ (exists r, m = x00 :: r) /\ fst (read_ok_packet (c_cap c) m) = Ok p /\
      awaits c (skip ++ [m]) (delivered (c_rd c')).
  Proof.
    induction fuel as [|fuel IH]; intros c c' H H0; [rewrite H0 in H; discriminate|].
    rewrite loop_eq in H. destruct (recv_msg_total c) as [(seqs & p & w & rest & c1 & E & W & D & D1)|(c1 & E)].
    2: { rewrite (ibind_err _ _ _ _ _ E) in H. discriminate. }
    destruct (recv_msg_spec _ _ _ _ _ W D) as (c1' & E' & _ & _ & S). rewrite E in E'. injection E' as <-.
    rewrite (ibind_ok _ _ _ _ _ E) in H. destruct p as [|b p]; [discriminate|].
    destruct (N.eqb_spec (b2n b) 255) as [_|N1].
    { unfold server_error, ibind, parse, ilift, ierr in H. destruct (fst (read_err_packet _ _ _)); discriminate. }
    destruct (N.eqb_spec (b2n b) 0) as [B|N2].
    - unfold parse, ibind, ilift, iret in H. rewrite (sbr_cap _ _ S) in H.
      destruct (fst (read_ok_packet (c_cap c) (b :: p))) as [o| | |] eqn:P; try discriminate. injection H as <-.
      exists [], (b :: p), o. splits; auto.
      + exists p. f_equal. apply b2n_inj. exact B.
      + exists w. rewrite D1, D. split; [|reflexivity]. cbn [app]. rewrite <- (app_nil_r w). econstructor; [exact W|constructor].
    - destruct (IH _ _ H H0) as (skip & m & o & F & M & P & (w' & W' & D')).
      exists ((b :: p) :: skip), m, o. splits; auto.
      + constructor; auto. exists b, p. splits; auto; intros ->; [apply N2|apply N1]; reflexivity.
      + rewrite <- (sbr_cap _ _ S). exact P.
      + exists (w ++ w'). rewrite D. rewrite D1 in D'. rewrite D', app_assoc. split; [|reflexivity].
        cbn [app]. econstructor; eauto.
  Qed.
  (** the answer to a query: nothing is reported *)
  Lemma loop_skip_all ps : forall fuel c d, Forall skipped ps -> awaits c ps d -> no_message d -> (length ps < fuel)%nat ->
    exists c', loop fuel c = (Err EIO, c').
  Proof.
    induction ps as [|s ps IH]; intros fuel c d Hs Ha Hn L; (destruct fuel as [|fuel]; [cbn [length] in L; lia|]); rewrite loop_eq.
    - apply awaits_nil in Ha. destruct (recv_msg_total c) as [(seqs & p & w & rest & c1 & E & W & D & D1)|(c1 & E)].
      + exfalso. apply (Hn _ _ _ rest W). congruence.
      + exists c1. rewrite (ibind_err _ _ _ _ _ E). reflexivity.
    - destruct (awaits_cons _ _ _ _ Ha) as (c1 & E1 & A1 & S1). rewrite (ibind_ok _ _ _ _ _ E1).
      inversion Hs as [|? ? (b & rest & -> & B1 & B2) Hs']; subst.
      destruct (N.eqb_spec (b2n b) 255) as [E|_]; [destruct B2; apply b2n_inj; exact E|].
      destruct (N.eqb_spec (b2n b) 0) as [E|_]; [destruct B1; apply b2n_inj; exact E|].
      apply (IH fuel c1 d Hs' A1 Hn). cbn [length] in L. lia.
  Qed.
End ExecLoop.

Lemma qloop_eq fuel : query_exec_loop (S fuel) =
      (msg <~ recv_msg ;;
      match msg with
      | [] => ipanic PIndex
      | b :: _ =>
        if b2n b =? 0xff then server_error msg
        else if b2n b =? 0x00 then
          fun c => (_ <~ parse (read_ok_packet (c_cap c)) msg ;; iret tt) c
        else query_exec_loop fuel
      end).
Proof. reflexivity. Qed.
Lemma sloop_eq fuel : stmt_exec_loop (S fuel) =
      (msg <~ recv_msg ;;
      match msg with
      | [] => ipanic PIndex
      | b :: _ =>
        if b2n b =? 0xff then server_error msg
        else if b2n b =? 0x00 then
          fun c => (_ <~ parse (read_ok_packet (c_cap c)) msg ;; iret tt) c
        else stmt_exec_loop fuel
      end).
Proof. reflexivity. Qed.

Lemma query_fits checks sql : sendable checks sql -> fits checks (write_query sql).
Proof. intros H. apply (fits_arg _ _ _ H). unfold write_query, write_u8, write_bytes. cbn [app length]. lia. Qed.
Lemma prepare_fits checks sql : sendable checks sql -> fits checks (write_stmt_prepare sql).
Proof. intros H. apply (fits_arg _ _ _ H). unfold write_stmt_prepare, write_u8, write_bytes. cbn [app length]. lia. Qed.

Lemma exec_ok cap checks sql skip m : sendable checks sql -> Forall skipped skip -> ok_message cap 0 m ->
  conversation cap (query_exec checks sql) [asks cap (RqQuery sql)] (skip ++ [m]) (Ok tt).
Proof.
  intros Hf Hs Hm. unfold query_exec. apply conv_send; [apply query_fits; exact Hf|apply sr_query|].
  intros c d Hc Ha. destruct (loop_ok query_exec_loop qloop_eq cap skip m [] Hs Hm c d Hc Ha) as (c' & E & A & S).
  exists c'. splits; auto using awaits_nil.
Qed.
Lemma exec_err cap checks sql skip m e : sendable checks sql -> Forall skipped skip -> err_message cap m e ->
  conversation cap (query_exec checks sql) [asks cap (RqQuery sql)] (skip ++ [m]) (Err e).
Proof.
  intros Hf Hs Hm. unfold query_exec. apply conv_send; [apply query_fits; exact Hf|apply sr_query|].
  intros c d Hc Ha. destruct (loop_err query_exec_loop qloop_eq cap skip m e [] Hs Hm c d Hc Ha) as (c' & E & A & S).
  exists c'. splits; auto using awaits_nil.
Qed.

Lemma stmt_exec_conv cap checks ps args skip m r : ps_stmt_id ps < 2 ^ 32 -> Forall arg_ok args ->
  sendable checks (write_stmt_execute (ps_stmt_id ps) (map to_col args)) ->
  answers cap (fun c => stmt_exec_loop (S (sched_len (c_rd c))) c) (skip ++ [m]) r ->
  conversation cap (stmt_exec checks ps (map to_col args)) [executes (ps_stmt_id ps) (map arg_value args)] (skip ++ [m]) r.
Proof.
  intros Hi Ha Hf Hk. unfold stmt_exec. apply conv_send; [|unfold executes; rewrite map_length; apply execute_request; assumption|exact Hk].
  apply (fits_arg _ _ _ Hf). lia.
Qed.
Lemma stmt_exec_ok cap checks ps args skip m : ps_stmt_id ps < 2 ^ 32 -> Forall arg_ok args ->
  sendable checks (write_stmt_execute (ps_stmt_id ps) (map to_col args)) -> Forall skipped skip -> ok_message cap 0 m ->
  conversation cap (stmt_exec checks ps (map to_col args)) [executes (ps_stmt_id ps) (map arg_value args)] (skip ++ [m]) (Ok tt).
Proof.
  intros Hi Ha Hf Hs Hm. apply stmt_exec_conv; auto. intros c d Hc Hw.
  destruct (loop_ok stmt_exec_loop sloop_eq cap skip m [] Hs Hm c d Hc Hw) as (c' & E & A & S).
  exists c'. splits; auto using awaits_nil.
Qed.
Lemma stmt_exec_err cap checks ps args skip m e : ps_stmt_id ps < 2 ^ 32 -> Forall arg_ok args ->
  sendable checks (write_stmt_execute (ps_stmt_id ps) (map to_col args)) -> Forall skipped skip -> err_message cap m e ->
  conversation cap (stmt_exec checks ps (map to_col args)) [executes (ps_stmt_id ps) (map arg_value args)] (skip ++ [m]) (Err e).
Proof.
  intros Hi Ha Hf Hs Hm. apply stmt_exec_conv; auto. intros c d Hc Hw.
  destruct (loop_err stmt_exec_loop sloop_eq cap skip m e [] Hs Hm c d Hc Hw) as (c' & E & A & S).
  exists c'. splits; auto using awaits_nil.
Qed.

Lemma exec_sound checks sql c c' : sendable checks sql -> accepting (c_ws c) -> query_exec checks sql c = (Ok tt, c') ->
  exists skip m p, Forall skipped skip /\ (exists r, m = x00 :: r) /\ fst (read_ok_packet (c_cap c) m) = Ok p /\
      awaits c (skip ++ [m]) (delivered (c_rd c')).
Proof.
  intros Hf Ha H. unfold query_exec in H. destruct (send_ok checks c (write_query sql) Ha (query_fits _ _ Hf)) as (c1 & E1 & _ & _ & S1).
  rewrite (ibind_ok _ _ _ _ _ E1) in H. destruct S1 as (R & C & _).
  destruct (loop_sound query_exec_loop qloop_eq _ _ _ H eq_refl) as (skip & m & p & F & M & P & (w & W & D)).
  exists skip, m, p. rewrite <- C. splits; auto. exists w. rewrite <- R. auto.
Qed.
Lemma stmt_exec_sound checks ps params c c' : sendable checks (write_stmt_execute (ps_stmt_id ps) params) ->
  accepting (c_ws c) -> stmt_exec checks ps params c = (Ok tt, c') ->
  exists skip m p, Forall skipped skip /\ (exists r, m = x00 :: r) /\ fst (read_ok_packet (c_cap c) m) = Ok p /\
      awaits c (skip ++ [m]) (delivered (c_rd c')).
Proof.
  intros Hf Ha H. unfold stmt_exec in H.
  destruct (send_ok checks c (write_stmt_execute (ps_stmt_id ps) params) Ha (fits_arg _ _ (write_stmt_execute (ps_stmt_id ps) params) Hf ltac:(lia))) as (c1 & E1 & _ & _ & S1).
  rewrite (ibind_ok _ _ _ _ _ E1) in H. destruct S1 as (R & C & _).
  destruct (loop_sound stmt_exec_loop sloop_eq _ _ _ H eq_refl) as (skip & m & p & F & M & P & (w & W & D)).
  exists skip, m, p. rewrite <- C. splits; auto. exists w. rewrite <- R. auto.
Qed.
(** a query answered by rows *)
Lemma exec_rows_swallowed checks sql ms c d : sendable checks sql -> accepting (c_ws c) ->
  Forall skipped ms -> awaits c ms d -> no_message d ->
  exists c', query_exec checks sql c = (Err EIO, c').
Proof.
  intros Hf Ha Hs Hw Hn. unfold query_exec. destruct (send_ok checks c (write_query sql) Ha (query_fits _ _ Hf)) as (c1 & E1 & _ & _ & S1).
  rewrite (ibind_ok _ _ _ _ _ E1). pose proof (awaits_write _ _ _ _ Hw S1) as Hw1.
  apply (loop_skip_all query_exec_loop qloop_eq ms _ c1 d Hs Hw1 Hn). apply awaits_fuel in Hw1. lia.
Qed.

(** closing *)
Lemma close_ok cap checks ps : ps_stmt_id ps < 2 ^ 32 ->
  conversation cap (stmt_close checks ps) [asks cap (RqStmtClose (ps_stmt_id ps))] [] (Ok tt).
Proof.
  intros Hi c d Hc Ha Hw. unfold stmt_close.
  destruct (send_ok checks c (write_stmt_close (ps_stmt_id ps)) Ha) as (c1 & E1 & O1 & A1 & (R & C & T)).
  { apply fits_small. cbn. reflexivity. }
  exists c1, [write_stmt_close (ps_stmt_id ps)]. splits; auto; try congruence.
  - constructor; [apply sr_stmt_close; exact Hi|constructor].
  - apply awaits_nil in Hw. congruence.
Qed.
Lemma exec_close_conv cap checks ps params q skip r : ps_stmt_id ps < 2 ^ 32 -> (r = Ok tt \/ exists e, r = Err e) ->
  conversation cap (stmt_exec checks ps params) [q] skip r ->
  conversation cap (stmt_exec_close checks ps params) [q; asks cap (RqStmtClose (ps_stmt_id ps))] skip r.
Proof.
  intros Hi Hr H c d Hc Ha Hw. destruct (H c d Hc Ha Hw) as (c1 & ms1 & E1 & O1 & F1 & D1 & A1 & C1 & T1).
  destruct (close_ok cap checks ps Hi c1 d C1 A1) as (c2 & ms2 & E2 & O2 & F2 & D2 & A2 & C2 & T2).
  { exists []. split; [constructor|exact D1]. }
  exists c2, (ms1 ++ ms2). unfold stmt_exec_close. rewrite E1.
  assert (Hq : Forall2 (fun rq m => rq m) ([q] ++ [asks cap (RqStmtClose (ps_stmt_id ps))]) (ms1 ++ ms2))
    by (apply Forall2_app; assumption).
  destruct Hr as [->|[e ->]]; rewrite E2; splits; eauto using commanded_trans; congruence.
Qed.

(** prepare *)
Lemma prepare_reads stmt_id n_cols n_params warnings : stmt_id < 2 ^ 32 -> n_cols < 2 ^ 16 -> n_params < 2 ^ 16 -> warnings < 2 ^ 16 ->
  read_stmt_prepare_ok (prepare_ok_wire stmt_id n_cols n_params warnings) = (Ok (mk_spo 0 stmt_id n_cols n_params warnings), []).
Proof.
  intros H1 H2 H3 H4. unfold read_stmt_prepare_ok, prepare_ok_wire. rewrite <- (app_nil_r (wle 2 warnings)).
  rstep. change (negb (0 =? 0)) with false. cbv iota. rsteps. reflexivity.
Qed.
Lemma recv_defs_block_ok c defs ms ps d : Forall coldef_ok defs -> defs_block (c_cap c) defs ms -> awaits c (ms ++ ps) d ->
  exists c', recv_defs_block (N.of_nat (length defs)) c = (Ok defs, c') /\ awaits c' ps d /\ same_but_read c c'.
Proof.
  intros Hd Hb Ha. unfold recv_defs_block. destruct defs as [|x defs].
  - cbn in Hb. subst ms. exists c. splits; auto using sbr_refl.
  - destruct Hb as (e & He & ->). rewrite <- app_assoc in Ha.
    destruct (recv_col_defs_ok _ Hd _ _ _ Ha) as (c1 & E1 & A1 & S1).
    rewrite <- (sbr_cap _ _ S1) in He. destruct (recv_defs_eof_ok _ _ _ _ He A1) as (c2 & E2 & A2 & S2).
    exists c2. splits; eauto using sbr_trans. destruct (N.eqb_spec (N.of_nat (length (x :: defs))) 0); [cbn [length] in *; lia|].
    rewrite Nat2N.id, (ibind_ok _ _ _ _ _ E1), (ibind_ok _ _ _ _ _ E2). reflexivity.
Qed.
Lemma prepare_ok cap checks sql id cols params warnings ms1 ms2 : sendable checks sql -> id < 2 ^ 32 -> warnings < 2 ^ 16 ->
  Forall coldef_ok cols -> Forall coldef_ok params -> N.of_nat (length cols) < 2 ^ 16 -> N.of_nat (length params) < 2 ^ 16 ->
  defs_block cap params ms1 -> defs_block cap cols ms2 ->
  conversation cap (stmt_prepare checks sql) [asks cap (RqStmtPrepare sql)]
    (prepare_ok_wire id (N.of_nat (length cols)) (N.of_nat (length params)) warnings :: ms1 ++ ms2)
    (Ok (mk_ps id cols params warnings)).
Proof.
  intros Hf Hi Hw Hc Hp Lc Lp B1 B2. unfold stmt_prepare. apply conv_send; [apply prepare_fits; exact Hf|apply sr_stmt_prepare|].
  intros c d Hcap Ha. destruct (awaits_cons _ _ _ _ Ha) as (c1 & E1 & A1 & S1).
  assert (C1 : c_cap c1 = cap) by (rewrite (sbr_cap _ _ S1); exact Hcap). rewrite <- C1 in B1.
  destruct (recv_defs_block_ok _ _ _ _ _ Hp B1 A1) as (c2 & E2 & A2 & S2).
  assert (C2 : c_cap c2 = cap) by (rewrite (sbr_cap _ _ S2); exact C1). rewrite <- C2 in B2. rewrite <- (app_nil_r ms2) in A2.
  destruct (recv_defs_block_ok _ _ _ _ _ Hc B2 A2) as (c3 & E3 & A3 & S3).
  exists c3. splits; eauto using sbr_trans, awaits_nil. rewrite (ibind_ok _ _ _ _ _ E1).
  pose proof (prepare_reads id (N.of_nat (length cols)) (N.of_nat (length params)) warnings Hi Lc Lp Hw) as R.
  assert (Hd : exists r, prepare_ok_wire id (N.of_nat (length cols)) (N.of_nat (length params)) warnings = x00 :: r)
    by (eexists; reflexivity).
  destruct Hd as (r & Er). rewrite Er in R |- *.
  change (b2n x00 =? 255) with false. cbv iota. unfold parse. rewrite R.
  cbn [fst]. erewrite ilift_bind by reflexivity. cbn [spo_n_params spo_n_cols spo_stmt_id spo_n_warnings].
  rewrite (ibind_ok _ _ _ _ _ E2), (ibind_ok _ _ _ _ _ E3). reflexivity.
Qed.
Lemma prepare_err cap checks sql m e : sendable checks sql -> err_message cap m e ->
  conversation cap (stmt_prepare checks sql) [asks cap (RqStmtPrepare sql)] [m] (Err e).
Proof.
  intros Hf Hm. unfold stmt_prepare. apply conv_send; [apply prepare_fits; exact Hf|apply sr_stmt_prepare|].
  intros c d Hcap Ha. destruct (awaits_cons _ _ _ _ Ha) as (c1 & E1 & A1 & S1).
  exists c1. splits; auto using awaits_nil. rewrite (ibind_ok _ _ _ _ _ E1).
  destruct (err_message_reads _ _ _ Hm) as (p & Ep & Ee). destruct (err_message_head _ _ _ Hm) as (r & Er).
  rewrite Er in *. change (b2n xff =? 255) with true. cbv iota.
  unfold server_error, parse. rewrite (sbr_cap _ _ S1), Hcap, Ep. cbn [fst]. unfold ibind, ilift, ierr. rewrite Ee. reflexivity.
Qed.

(** ** result sets of queries *)
Lemma qry_ok cap checks sql defs hd : sendable checks sql -> defs_ok defs -> heading cap defs hd ->
  conversation cap (query_qry checks sql) [asks cap (RqQuery sql)] hd (Ok (rs_new defs None)).
Proof.
  intros Hf Hd Hh. unfold query_qry. apply conv_send; [apply query_fits; exact Hf|apply sr_query|].
  intros c d <- Ha. rewrite <- (app_nil_r hd) in Ha. destruct (new_result_set_ok c defs hd [] d None Hd Hh Ha) as (c' & E & A & S).
  exists c'. splits; auto using awaits_nil.
Qed.
Lemma stmt_qry_conv cap checks ps args pms r : ps_stmt_id ps < 2 ^ 32 -> Forall arg_ok args ->
  sendable checks (write_stmt_execute (ps_stmt_id ps) (map to_col args)) ->
  answers cap (new_result_set (Some (ps_stmt_id ps))) pms r ->
  conversation cap (stmt_qry checks ps (map to_col args)) [executes (ps_stmt_id ps) (map arg_value args)] pms r.
Proof.
  intros Hi Ha Hf Hk. unfold stmt_qry. apply conv_send; [|unfold executes; rewrite map_length; apply execute_request; assumption|exact Hk].
  apply (fits_arg _ _ _ Hf). lia.
Qed.
Lemma result_set_answers cap defs hd stmt : defs_ok defs -> heading cap defs hd ->
  answers cap (new_result_set stmt) hd (Ok (rs_new defs stmt)).
Proof.
  intros Hd Hh c d <- Ha. rewrite <- (app_nil_r hd) in Ha. destruct (new_result_set_ok c defs hd [] d stmt Hd Hh Ha) as (c' & E & A & S).
  exists c'. splits; auto using awaits_nil.
Qed.
Lemma result_set_answers_empty cap m stmt : ok_message cap 0 m -> answers cap (new_result_set stmt) [m] (Ok (rs_empty stmt)).
Proof.
  intros Hm c d <- Ha. destruct (new_result_set_empty c m [] d stmt Hm Ha) as (c' & E & A & S).
  exists c'. splits; auto using awaits_nil.
Qed.
Lemma result_set_answers_err cap m e stmt : err_message cap m e -> answers cap (new_result_set stmt) [m] (Err e).
Proof.
  intros Hm c d <- Ha. destruct (new_result_set_err c m e [] d stmt Hm Ha) as (c' & E & A & S).
  exists c'. splits; auto using awaits_nil.
Qed.
Lemma empty_delivers {Q} (rd : result_set -> parser (list Q)) stmt c : delivers (next_row rd) (rs_empty stmt) c [] (delivered (c_rd c)).
Proof.
  apply yields_delivers; [|cbn; lia]. apply (y_nil _ (rs_empty stmt) c (rs_empty stmt) c); auto using sbr_refl.
Qed.

(** rows on a result set just obtained *)
Lemma text_delivers c defs stmt rows ms last d : defs_ok defs -> text_rows_wire defs rows ms ->
  last_message (c_cap c) last -> awaits c (ms ++ [last]) d ->
  delivers (next_row text_rows) (rs_new defs stmt) c rows d /\
  (forall O (f : list (option bytes) -> O), delivers (map_next_row text_rows f) (rs_new defs stmt) c (map f rows) d).
Proof.
  intros Hd Hr Hl Ha.
  assert (R : Forall2 (row_msg text_rows (rs_new defs stmt)) rows ms).
  { clear - Hr Hd. induction Hr as [|row m rows ms (H1 & H2 & ->) H IH]; constructor; auto using text_row_msg. }
  pose proof (rows_yield text_rows (rs_new defs stmt) rows ms last d eq_refl R c Hl Ha) as Y.
  pose proof (awaits_rows_fuel _ _ _ _ _ _ R Ha) as L.
  split; [apply yields_delivers; assumption|]. intros O f. apply yields_delivers; [apply yields_map; exact Y|].
  rewrite map_length. exact L.
Qed.
Lemma binary_delivers c defs stmt rows ms last d : defs_ok defs -> binary_rows_wire defs rows ms ->
  last_message (c_cap c) last -> awaits c (ms ++ [last]) d ->
  delivers (next_row binary_rows) (rs_new defs stmt) c rows d /\
  (forall O (f : list binary_value -> O), delivers (map_next_row binary_rows f) (rs_new defs stmt) c (map f rows) d).
Proof.
  intros Hd Hr Hl Ha.
  assert (R : Forall2 (row_msg binary_rows (rs_new defs stmt)) rows ms).
  { clear - Hr Hd. induction Hr as [|row m rows ms H1 H IH]; constructor; auto using binary_row_msg. }
  pose proof (rows_yield binary_rows (rs_new defs stmt) rows ms last d eq_refl R c Hl Ha) as Y.
  pose proof (awaits_rows_fuel _ _ _ _ _ _ R Ha) as L.
  split; [apply yields_delivers; assumption|]. intros O f. apply yields_delivers; [apply yields_map; exact Y|].
  rewrite map_length. exact L.
Qed.

(** ** rows cut short *)
Section Breaks.
  Context {A : Type} (next : rs_io (option A)).
  Inductive stops : result_set -> conn -> list A -> error -> Prop :=
  | st_nil rs c rs' c' e : next rs c = (Err e, rs', c') -> stops rs c [] e
  | st_cons rs c row rs' c' rows e : next rs c = (Ok (Some row), rs', c') -> same_but_read c c' ->
      stops rs' c' rows e -> stops rs c (row :: rows) e.
  Lemma stops_pulls rs c rows e : stops rs c rows e ->
    exists rs' c', pulls next (S (length rows)) rs c = (map (fun r => Ok (Some r)) rows ++ [Err e], rs', c').
  Proof.
    induction 1 as [rs c rs' c' e H1|rs c row rs' c' rows e H1 H2 H3 (rs2 & c2 & E)].
    - exists rs', c'. cbn [length pulls map app]. rewrite H1. reflexivity.
    - exists rs2, c2. cbn [length]. cbn [pulls map app] in E |- *. rewrite H1, E. reflexivity.
  Qed.
  Lemma stops_while {B} (step : B -> A -> B) rs c rows e : stops rs c rows e -> forall fuel acc, (length rows < fuel)%nat ->
    exists rs' c', while_rows fuel next step acc rs c = (Err e, rs', c').
  Proof.
    induction 1 as [rs c rs' c' e H1|rs c row rs' c' rows e H1 H2 H3 IH]; intros fuel acc L;
      (destruct fuel as [|fuel]; [cbn [length] in L; lia|]); cbn [while_rows]; rewrite H1.
    - eauto.
    - apply IH. cbn [length] in L. lia.
  Qed.
  Lemma stops_breaks rs c rows e : stops rs c rows e -> (length rows <= sched_len (c_rd c))%nat -> breaks next rs c rows e.
  Proof.
    intros H L. assert (L' : (length rows < S (sched_len (c_rd c)))%nat) by lia. unfold breaks. splits.
    - apply stops_pulls. exact H.
    - apply (stops_while _ _ _ _ _ H _ _ L').
    - apply (stops_while _ _ _ _ _ H _ _ L').
    - apply (stops_while _ _ _ _ _ H _ _ L').
    - destruct (stops_while (fun first row => match first with None => Some row | Some _ => first end) _ _ _ _ H _ None L')
        as (rs' & c' & E).
      exists rs', c'. unfold rs_first, rs_first_or_none. rewrite E. reflexivity.
  Qed.
End Breaks.

Lemma rows_stop {Q} (rd : result_set -> parser (list Q)) rs rows ms tail d e : rs_completed rs = false ->
  Forall2 (row_msg rd rs) rows ms ->
  (forall c, awaits c tail d -> stops (next_row rd) rs c [] e) ->
  forall c, awaits c (ms ++ tail) d -> stops (next_row rd) rs c rows e.
Proof.
  intros Hc H Ht. induction H as [|row m rows ms H1 H2 IH]; intros c Ha; [auto|].
  destruct (next_row_row rd _ _ _ _ _ _ Hc H1 Ha) as (c1 & E1 & A1 & S1).
  apply (st_cons _ rs c row rs c1); auto.
Qed.
Lemma recv_nothing c d : awaits c [] d -> no_message d -> exists c', recv_msg c = (Err EIO, c').
Proof.
  intros Ha Hn. apply awaits_nil in Ha.
  destruct (recv_msg_total c) as [(seqs & p & w & rest & c1 & E & W & D & D1)|(c1 & E)]; [|eauto].
  exfalso. apply (Hn _ _ _ rest W). congruence.
Qed.
Lemma text_breaks c defs stmt rows ms tail d e : defs_ok defs -> text_rows_wire defs rows ms ->
  (forall c, awaits c tail d -> stops (next_row text_rows) (rs_new defs stmt) c [] e) -> awaits c (ms ++ tail) d ->
  breaks (next_row text_rows) (rs_new defs stmt) c rows e.
Proof.
  intros Hd Hr Ht Ha.
  assert (R : Forall2 (row_msg text_rows (rs_new defs stmt)) rows ms).
  { clear - Hr Hd. induction Hr as [|row m rows ms (H1 & H2 & ->) H IH]; constructor; auto using text_row_msg. }
  apply stops_breaks; [apply (rows_stop _ (rs_new defs stmt) rows ms tail d e eq_refl R Ht c Ha)|].
  apply awaits_fuel in Ha. rewrite app_length in Ha.
  assert (L : length rows = length ms) by (clear - R; induction R; cbn [length]; auto). lia.
Qed.
Lemma binary_breaks c defs stmt rows ms tail d e : binary_rows_wire defs rows ms ->
  (forall c, awaits c tail d -> stops (next_row binary_rows) (rs_new defs stmt) c [] e) -> awaits c (ms ++ tail) d ->
  breaks (next_row binary_rows) (rs_new defs stmt) c rows e.
Proof.
  intros Hr Ht Ha.
  assert (R : Forall2 (row_msg binary_rows (rs_new defs stmt)) rows ms).
  { clear - Hr. induction Hr as [|row m rows ms H1 H IH]; constructor; auto using binary_row_msg. }
  apply stops_breaks; [apply (rows_stop _ (rs_new defs stmt) rows ms tail d e eq_refl R Ht c Ha)|].
  apply awaits_fuel in Ha. rewrite app_length in Ha.
  assert (L : length rows = length ms) by (clear - R; induction R; cbn [length]; auto). lia.
Qed.
Lemma stops_cut {Q} (rd : result_set -> parser (list Q)) rs d : rs_completed rs = false -> no_message d ->
  forall c, awaits c [] d -> stops (next_row rd) rs c [] EIO.
Proof.
  intros Hc Hn c Ha. destruct (recv_nothing c d Ha Hn) as (c' & E). apply (st_nil _ rs c rs c').
  unfold next_row. rewrite Hc, E. reflexivity.
Qed.
Lemma text_truncated c defs stmt rows ms d : defs_ok defs -> text_rows_wire defs rows ms -> awaits c ms d -> no_message d ->
  breaks (next_row text_rows) (rs_new defs stmt) c rows EIO.
Proof.
  intros Hd Hr Ha Hn. rewrite <- (app_nil_r ms) in Ha.
  apply (text_breaks c defs stmt rows ms [] d EIO Hd Hr); [|exact Ha]. apply stops_cut; auto.
Qed.
Lemma binary_truncated c defs stmt rows ms d : binary_rows_wire defs rows ms -> awaits c ms d -> no_message d ->
  breaks (next_row binary_rows) (rs_new defs stmt) c rows EIO.
Proof.
  intros Hr Ha Hn. rewrite <- (app_nil_r ms) in Ha.
  apply (binary_breaks c defs stmt rows ms [] d EIO Hr); [|exact Ha]. apply stops_cut; auto.
Qed.
(** an error packet among the rows *)
Lemma text_error_lost c defs stmt rows ms body d : defs_ok defs -> text_rows_wire defs rows ms ->
  awaits c (ms ++ [xff :: body]) d ->
  breaks (next_row text_rows) (rs_new defs stmt) c rows EConstraint.
Proof.
  intros Hd Hr Ha. apply (text_breaks c defs stmt rows ms [xff :: body] d EConstraint Hd Hr); [|exact Ha].
  clear c Ha. intros c Ha. destruct (awaits_cons _ _ _ _ Ha) as (c1 & E1 & A1 & S1).
  apply (st_nil _ _ c (rs_new defs stmt) c1). unfold next_row. cbn [rs_new rs_completed]. rewrite E1.
  unfold next_row_msg. change (b2n xff =? 254) with false. cbn [andb].
  unfold text_rows, read_text_row, with_capacity. cbn [rs_new rs_col_defs].
  destruct Hd as (Hn & Hl & _). destruct defs as [|x defs]; [congruence|].
  rewrite Nat2N.id. cbn [length prepeat].
  destruct (N.leb_spec (2 ^ 63) (32 * N.of_nat (S (length defs)))) as [L|L]; [cbn [length] in Hl; lia|]. reflexivity.
Qed.
Lemma binary_error_row c defs stmt body row d : wire_row (map cd_type defs) row (x00 :: body) ->
  awaits c [xff :: body] d ->
  exists c', next_row binary_rows (rs_new defs stmt) c = (Ok (Some row), rs_new defs stmt, c') /\ delivered (c_rd c') = d.
Proof.
  intros Hr Ha. destruct (awaits_cons _ _ _ _ Ha) as (c1 & E1 & A1 & S1). exists c1. split; [|auto using awaits_nil].
  unfold next_row. cbn [rs_new rs_completed]. rewrite E1. unfold next_row_msg. change (b2n xff =? 254) with false. cbn [andb].
  unfold binary_rows. cbn [rs_new rs_col_types].
  assert (E : forall b, fst (read_binary_row (map cd_type defs) (b :: body)) = fst (read_binary_row (map cd_type defs) (x00 :: body))).
  { intros b. unfold read_binary_row. rewrite !(pbind_ok _ _ _ _ _ (read_u8_cons _ _)). reflexivity. }
  rewrite E. rewrite <- (app_nil_r (x00 :: body)), (read_row _ _ _ [] Hr). reflexivity.
Qed.

(** ** The commands *)
Lemma recv_com_ok cap m : ok_message cap 0 m -> answers cap recv_com_response [m] (Ok tt).
Proof.
  intros Hm c d Hc Ha. destruct (awaits_cons _ _ _ _ Ha) as (c1 & E1 & A1 & S1). exists c1. splits; auto using awaits_nil.
  unfold recv_com_response. rewrite (ibind_ok _ _ _ _ _ E1). rewrite (sbr_cap _ _ S1), Hc.
  destruct (ok_message_reads _ 0 _ eq_refl Hm) as (p & Ep). destruct (ok_message_head _ _ _ Hm) as (r & Er).
  unfold parse, read_com_response. rewrite Er in *. change (b2n (n2b 0) =? 0) with true. cbv iota.
  rewrite (pmap_ok _ _ _ _ _ Ep). reflexivity.
Qed.
Lemma recv_com_err cap m e : err_message cap m e -> answers cap recv_com_response [m] (Err e).
Proof.
  intros Hm c d Hc Ha. destruct (awaits_cons _ _ _ _ Ha) as (c1 & E1 & A1 & S1). exists c1. splits; auto using awaits_nil.
  unfold recv_com_response. rewrite (ibind_ok _ _ _ _ _ E1). rewrite (sbr_cap _ _ S1), Hc.
  destruct (err_message_reads _ _ _ Hm) as (p & Ep & Ee). destruct (err_message_head _ _ _ Hm) as (r & Er).
  unfold parse, read_com_response. rewrite Er in *. change (b2n xff =? 0) with false. change (b2n xff =? 255) with true. cbv iota.
  rewrite (pmap_ok _ _ _ _ _ Ep). cbn [fst]. unfold ibind, ilift, ierr. rewrite Ee. reflexivity.
Qed.
Lemma recv_com_other cap m : skipped m -> answers cap recv_com_response [m] (Err EConstraint).
Proof.
  intros (b & r & -> & B1 & B2) c d Hc Ha. destruct (awaits_cons _ _ _ _ Ha) as (c1 & E1 & A1 & S1). exists c1. splits; auto using awaits_nil.
  unfold recv_com_response. rewrite (ibind_ok _ _ _ _ _ E1).
  unfold parse, read_com_response. destruct (N.eqb_spec (b2n b) 0) as [E|_]; [destruct B1; apply b2n_inj; exact E|].
  destruct (N.eqb_spec (b2n b) 255) as [E|_]; [destruct B2; apply b2n_inj; exact E|]. reflexivity.
Qed.
Lemma sr_register_anonymous cap id : id < 2 ^ 32 ->
  server_request cap (write_register_slave (register_slave_anonymous id)) = Some (RqRegisterSlave id [] [] [] 0 0 0).
Proof. intros H. unfold register_slave_anonymous. rewrite sr_register_slave_cut by (reflexivity || exact H). reflexivity. Qed.

Lemma simple_conv cap checks cmd rq ps r : simple_command checks cmd rq -> answers cap recv_com_response ps r ->
  conversation cap cmd [asks cap rq] ps r.
Proof.
  intros Hc Hk. destruct Hc as [db H|db H|db H|f H|id H| |id H]; (apply conv_send; [| |exact Hk]).
  - apply (fits_arg _ _ _ H). unfold write_init_db, write_u8, write_bytes. cbn [app length]. lia.
  - apply sr_init_db.
  - apply (fits_arg _ _ _ H). unfold write_create_db, write_u8, write_bytes. cbn [app length]. lia.
  - apply sr_create_db.
  - apply (fits_arg _ _ _ H). unfold write_drop_db, write_u8, write_bytes. cbn [app length]. lia.
  - apply sr_drop_db.
  - apply fits_small. reflexivity.
  - apply sr_refresh. exact H.
  - apply fits_small. reflexivity.
  - apply sr_process_kill. exact H.
  - apply fits_small. reflexivity.
  - apply sr_reset_connection.
  - apply fits_small. reflexivity.
  - apply sr_register_anonymous. exact H.
Qed.

Lemma quit_conv cap checks : conversation cap (conn_quit checks) [asks cap RqQuit] [] (Ok tt).
Proof.
  intros c d Hc Ha Hw. unfold conn_quit.
  destruct (send_ok checks c write_quit Ha) as (c1 & E1 & O1 & A1 & (R & C & T)); [apply fits_small; reflexivity|].
  exists c1, [write_quit]. splits; auto; try congruence.
  - constructor; [apply sr_quit|constructor].
  - apply awaits_nil in Hw. congruence.
Qed.

(** field list *)
Lemma field_head d : field_ok d -> N.of_nat (length (cd_catalog d)) < 2 ^ 24 ->
  exists b r, field_wire d = b :: r /\ b2n b <> 255 /\ b2n b <> 254.
Proof.
  intros _ H. unfold field_wire, coldef_wire, wlstr. rewrite <- !app_assoc. unfold wlenenc at 1. fold (blen (cd_catalog d)).
  change (N.of_nat (length (cd_catalog d))) with (blen (cd_catalog d)) in H. destruct (N.ltb_spec (blen (cd_catalog d)) 251).
  - eexists _, _. split; [reflexivity|]. rewrite b2n_n2b_small by lia. lia.
  - destruct (N.ltb_spec (blen (cd_catalog d)) (2 ^ 16)); [eexists _, _; split; [reflexivity|split; discriminate]|].
    destruct (N.ltb_spec (blen (cd_catalog d)) (2 ^ 24)); [|lia]. eexists _, _; split; [reflexivity|split; discriminate].
Qed.
Lemma field_list_loop_ok cap defs m r :
  Forall (fun d => field_ok d /\ N.of_nat (length (cd_catalog d)) < 2 ^ 24) defs ->
  eof_message cap m /\ r = None \/ (exists e, err_message cap m e /\ r = Some e) ->
  forall fuel acc c d, c_cap c = cap -> awaits c (map field_wire defs ++ [m]) d -> (length defs < fuel)%nat ->
  exists c', field_list_loop fuel acc c = (match r with None => Ok (acc ++ defs) | Some e => Err e end, c') /\
    delivered (c_rd c') = d /\ same_but_read c c'.
Proof.
  intros H Hm. induction H as [|x defs (Hx & Hx') H IH]; intros fuel acc c d Hc Ha L;
    (destruct fuel as [|fuel]; [cbn [length] in L; lia|]);
    destruct (awaits_cons _ _ _ _ Ha) as (c1 & E1 & A1 & S1); cbn [field_list_loop]; rewrite (ibind_ok _ _ _ _ _ E1), (sbr_cap _ _ S1), Hc.
  - exists c1. rewrite app_nil_r. unfold parse, read_field_list_response.
    destruct Hm as [[Hm ->]|(e & Hm & ->)]; splits; auto using awaits_nil.
    + destruct (eof_message_reads _ _ Hm) as (p & rest & Ep). destruct (eof_message_head _ _ Hm) as (q & Er). rewrite Er in *.
      change (b2n xfe =? 255) with false. change (b2n xfe =? 254) with true. cbv iota. rewrite (pmap_ok _ _ _ _ _ Ep). reflexivity.
    + destruct (err_message_reads _ _ _ Hm) as (p & Ep & Ee). destruct (err_message_head _ _ _ Hm) as (q & Er). rewrite Er in *.
      change (b2n xff =? 255) with true. cbv iota. rewrite (pmap_ok _ _ _ _ _ Ep). cbn [fst].
      unfold ibind, ilift, ierr. rewrite Ee. reflexivity.
  - assert (R : fst (read_field_list_response cap true (field_wire x)) = Ok (FlColDef x)).
    { unfold read_field_list_response. destruct (field_head x Hx Hx') as (b & q & E & B1 & B2).
      pose proof (read_field_all x Hx) as P. rewrite E in P |- *.
      destruct (N.eqb_spec (b2n b) 255); [contradiction|]. destruct (N.eqb_spec (b2n b) 254); [contradiction|].
      rewrite (pmap_ok _ _ _ _ _ P). reflexivity. }
    unfold parse. rewrite R. erewrite ilift_bind by reflexivity.
    destruct (IH fuel (acc ++ [x]) c1 d) as (c2 & E2 & D2 & S2).
    { rewrite (sbr_cap _ _ S1). exact Hc. } { exact A1. } { cbn [length] in L. lia. }
    exists c2. rewrite E2, <- app_assoc. splits; eauto using sbr_trans.
Qed.
Lemma field_list_conv cap checks table wildcard defs m r : no_nul table -> sendable checks (table ++ wildcard) ->
  Forall (fun d => field_ok d /\ N.of_nat (length (cd_catalog d)) < 2 ^ 24) defs ->
  eof_message cap m /\ r = None \/ (exists e, err_message cap m e /\ r = Some e) ->
  conversation cap (conn_field_list checks table wildcard) [asks cap (RqFieldList table wildcard)]
    (map field_wire defs ++ [m]) (match r with None => Ok defs | Some e => Err e end).
Proof.
  intros Hn Hf Hd Hm. unfold conn_field_list. apply conv_send.
  - apply (fits_arg _ _ _ Hf). unfold write_field_list, write_u8, write_bytes. rewrite !app_length. cbn [length]. lia.
  - apply sr_field_list. exact Hn.
  - intros c d Hc Ha. apply (field_list_loop_ok cap defs m r Hd Hm _ [] c d Hc Ha).
    apply awaits_fuel in Ha. rewrite app_length, map_length in Ha. lia.
Qed.

(** statistics *)
Lemma statistics_conv cap checks m : 
  conversation cap (conn_statistics checks) [asks cap RqStatistics] [m] (if utf8_valid m then Ok m else Err EUtf8).
Proof.
  apply conv_send; [apply fits_small; reflexivity|apply sr_statistics|].
  intros c d Hc Ha. destruct (awaits_cons _ _ _ _ Ha) as (c1 & E1 & A1 & S1). exists c1. splits; auto using awaits_nil.
  rewrite (ibind_ok _ _ _ _ _ E1). unfold ilift, from_utf8. destruct (utf8_valid m); reflexivity.
Qed.
Lemma err_not_utf8 cap m e : err_message cap m e -> utf8_valid m = false.
Proof. intros H. destruct (err_message_head _ _ _ H) as (r & ->). destruct r as [|? [|? [|? ?]]]; reflexivity. Qed.

(** debug *)
Lemma debug_eof cap checks m : eof_message cap m ->
  conversation cap (conn_debug checks) [asks cap RqDebug] [m] (Ok tt).
Proof.
  intros Hm. apply conv_send; [apply fits_small; reflexivity|apply sr_debug|].
  intros c d Hc Ha. destruct (awaits_cons _ _ _ _ Ha) as (c1 & E1 & A1 & S1). exists c1. splits; auto using awaits_nil.
  rewrite (ibind_ok _ _ _ _ _ E1), (sbr_cap _ _ S1), Hc. unfold parse, read_debug_response.
  destruct (eof_message_reads _ _ Hm) as (p & rest & Ep). destruct (eof_message_head _ _ Hm) as (q & Er). rewrite Er in *.
  change (b2n xfe =? 254) with true. cbv iota. rewrite (pmap_ok _ _ _ _ _ Ep). reflexivity.
Qed.
Lemma debug_err cap checks m e : err_message cap m e ->
  conversation cap (conn_debug checks) [asks cap RqDebug] [m] (Err e).
Proof.
  intros Hm. apply conv_send; [apply fits_small; reflexivity|apply sr_debug|].
  intros c d Hc Ha. destruct (awaits_cons _ _ _ _ Ha) as (c1 & E1 & A1 & S1). exists c1. splits; auto using awaits_nil.
  rewrite (ibind_ok _ _ _ _ _ E1), (sbr_cap _ _ S1), Hc. unfold parse, read_debug_response.
  destruct (err_message_reads _ _ _ Hm) as (p & Ep & Ee). destruct (err_message_head _ _ _ Hm) as (q & Er). rewrite Er in *.
  change (b2n xff =? 254) with false. change (b2n xff =? 255) with true. cbv iota. rewrite (pmap_ok _ _ _ _ _ Ep). cbn [fst].
  unfold ibind, ilift, ierr. rewrite Ee. reflexivity.
Qed.

(** ping *)
Lemma ping_ok cap checks h m : h < 256 -> ok_message cap h m ->
  conversation cap (conn_ping checks) [asks cap RqPing] [m] (Ok tt).
Proof.
  intros Hh Hm. apply conv_send; [apply fits_small; reflexivity|apply sr_ping|].
  intros c d Hc Ha. destruct (awaits_cons _ _ _ _ Ha) as (c1 & E1 & A1 & S1). exists c1. splits; auto using awaits_nil.
  rewrite (ibind_ok _ _ _ _ _ E1), (sbr_cap _ _ S1), Hc. unfold parse.
  destruct (ok_message_reads _ h _ Hh Hm) as (p & Ep). rewrite Ep. reflexivity.
Qed.
Lemma err_as_ok cap code s0 s1 s2 s3 s4 msg : cap_protocol_41 cap = true -> cap_session_track cap = false -> code < 2 ^ 16 ->
  code mod 256 < 251 -> code / 256 < 251 -> b2n s0 < 128 -> N.of_nat (length msg) < 2 ^ 63 ->
  exists info, err_wire cap code [s0; s1; s2; s3; s4] msg
    = ok_wire cap 0xff (code mod 256) (code / 256) (35 + 256 * b2n s0) (b2n s1 + 256 * b2n s2) info [] /\
    N.of_nat (length info) < 2 ^ 64.
Proof.
  intros H41 Hst Hc H1 H2 Hs Hm. exists (s3 :: s4 :: msg). unfold err_wire, ok_wire. rewrite H41, Hst. cbn [orb andb].
  assert (E1 : wle 2 code = wlenenc (code mod 256) ++ wlenenc (code / 256)).
  { unfold wlenenc. destruct (N.ltb_spec (code mod 256) 251); [|lia]. destruct (N.ltb_spec (code / 256) 251); [|lia].
    cbn [wle app]. rewrite (N.mod_small (code / 256)) by lia. reflexivity. }
  assert (E2 : wle 2 (35 + 256 * b2n s0) = [x23; s0]).
  { cbn [wle]. replace ((35 + 256 * b2n s0) mod 256) with 35 by (pose proof (b2n_lt s0); lia).
    replace ((35 + 256 * b2n s0) / 256 mod 256) with (b2n s0) by (pose proof (b2n_lt s0); lia).
    rewrite n2b_b2n. reflexivity. }
  assert (E3 : wle 2 (b2n s1 + 256 * b2n s2) = [s1; s2]).
  { cbn [wle]. pose proof (b2n_lt s1). pose proof (b2n_lt s2).
    replace ((b2n s1 + 256 * b2n s2) mod 256) with (b2n s1) by lia.
    replace ((b2n s1 + 256 * b2n s2) / 256 mod 256) with (b2n s2) by lia.
    rewrite !n2b_b2n. reflexivity. }
  rewrite E1, E2, E3. split; [|cbn [length]; lia]. cbn [app]. rewrite <- !app_assoc. cbn [app]. rewrite ?app_nil_r. reflexivity.
Qed.

Lemma ping_hides_error cap checks code s0 s1 s2 s3 s4 msg : cap_protocol_41 cap = true -> cap_session_track cap = false ->
  code < 2 ^ 16 -> code mod 256 < 251 -> code / 256 < 251 -> b2n s0 < 128 -> N.of_nat (length msg) < 2 ^ 63 ->
  conversation cap (conn_ping checks) [asks cap RqPing] [err_wire cap code [s0; s1; s2; s3; s4] msg] (Ok tt).
Proof.
  intros H41 Hst Hc H1 H2 Hs Hm. destruct (err_as_ok cap code s0 s1 s2 s3 s4 msg H41 Hst Hc H1 H2 Hs Hm) as (info & E & L).
  rewrite E. apply (ping_ok cap checks 0xff); [reflexivity|]. pose proof (b2n_lt s1). pose proof (b2n_lt s2).
  constructor; try lia. reflexivity.
Qed.

(** multiple statements *)
Lemma testbit_lor_bit cap k i : N.testbit (N.lor cap (2 ^ k)) i = if i =? k then true else N.testbit cap i.
Proof.
  rewrite N.lor_spec, N.pow2_bits_eqb, (N.eqb_sym k i). destruct (N.eqb_spec i k); [apply orb_true_r|apply orb_false_r].
Qed.
Lemma testbit_ldiff_bit cap k i : N.testbit (N.ldiff cap (2 ^ k)) i = if i =? k then false else N.testbit cap i.
Proof.
  rewrite N.ldiff_spec, N.pow2_bits_eqb, (N.eqb_sym k i). destruct (N.eqb_spec i k); [apply andb_false_r|apply andb_true_r].
Qed.
Lemma multi_eof cap checks b m c d : eof_message cap m -> c_cap c = cap -> accepting (c_ws c) -> awaits c [m] d ->
  exists c' ms, conn_set_multi_stmts checks b c = (Ok tt, c') /\ commanded c c' [ms] /\
    server_request cap ms = Some (RqSetOption (negb b)) /\ delivered (c_rd c') = d /\
    (forall i, N.testbit (c_cap c') i = if i =? 16 then b else N.testbit cap i).
Proof.
  intros Hm Hc Ha Hw. unfold conn_set_multi_stmts.
  destruct (send_ok checks c (write_set_option b) Ha) as (c1 & E1 & O1 & A1 & S1).
  { apply fits_small. destruct b; reflexivity. }
  pose proof (awaits_write _ _ _ _ Hw S1) as Hw1. destruct S1 as (R1 & C1 & T1).
  destruct (awaits_cons _ _ _ _ Hw1) as (c2 & E2 & A2 & S2).
  rewrite (ibind_ok _ _ _ _ _ E1), (ibind_ok _ _ _ _ _ E2). rewrite (sbr_cap _ _ S2), C1, Hc.
  destruct (eof_message_reads _ _ Hm) as (p & rest & Ep). destruct (eof_message_head _ _ Hm) as (q & Er).
  assert (R : fst (read_set_option_response cap m) = Ok (SoEof p)).
  { unfold read_set_option_response. rewrite Er in *.
    change (b2n xfe =? 255) with false. change (b2n xfe =? 254) with true. cbv iota. rewrite (pmap_ok _ _ _ _ _ Ep). reflexivity. }
  unfold parse. rewrite R. erewrite ilift_bind by reflexivity. eexists _, (write_set_option b). split; [reflexivity|].
  splits.
  - destruct O1 as (w & W & Ow). exists w. split; [exact W|]. cbn. destruct S2 as (_ & X2 & _). congruence.
  - apply sr_set_option.
  - cbn. apply awaits_nil. exact A2.
  - intros i. cbn [set_cap c_cap]. rewrite (sbr_cap _ _ S2), C1, Hc. destruct b.
    + apply (testbit_lor_bit cap 16 i).
    + apply (testbit_ldiff_bit cap 16 i).
Qed.
Lemma multi_err cap checks b m e : err_message cap m e ->
  conversation cap (conn_set_multi_stmts checks b) [asks cap (RqSetOption (negb b))] [m] (Err e).
Proof.
  intros Hm. apply conv_send; [apply fits_small; destruct b; reflexivity|apply sr_set_option|].
  intros c d Hc Ha. destruct (awaits_cons _ _ _ _ Ha) as (c1 & E1 & A1 & S1). exists c1. splits; auto using awaits_nil.
  rewrite (ibind_ok _ _ _ _ _ E1), (sbr_cap _ _ S1), Hc. unfold parse, read_set_option_response.
  destruct (err_message_reads _ _ _ Hm) as (p & Ep & Ee). destruct (err_message_head _ _ _ Hm) as (q & Er). rewrite Er in *.
  change (b2n xff =? 255) with true. cbv iota. rewrite (pmap_ok _ _ _ _ _ Ep). cbn [fst].
  unfold ibind, ilift, ierr. rewrite Ee. reflexivity.
Qed.

(** process list *)
Lemma process_info_ok cap checks defs hd : defs_ok defs -> heading cap defs hd ->
  conversation cap (conn_process_info checks) [asks cap RqProcessInfo] hd (Ok (rs_new defs None)).
Proof.
  intros Hd Hh. apply conv_send; [apply fits_small; reflexivity|apply sr_process_info|].
  apply result_set_answers; assumption.
Qed.
Lemma process_info_err cap checks m e : err_message cap m e ->
  conversation cap (conn_process_info checks) [asks cap RqProcessInfo] [m] (Err e).
Proof.
  intros Hm. apply conv_send; [apply fits_small; reflexivity|apply sr_process_info|].
  apply result_set_answers_err; assumption.
Qed.

(** ** Queries with fixed SQL *)
Lemma conv_on_rs {A B} cap checks sql defs hd pms (m : rs_io A) (k : A -> io B) a r :
  sendable checks sql -> defs_ok defs -> heading cap defs hd ->
  (forall c d, c_cap c = cap -> awaits c pms d ->
     exists rs' c', m (rs_new defs None) c = (Ok a, rs', c') /\ delivered (c_rd c') = d /\ same_but_read c c') ->
  (forall c, k a c = (r, c)) ->
  conversation cap (rs <~ query_qry checks sql ;; x <~ on_rs m rs ;; k x) [asks cap (RqQuery sql)] (hd ++ pms) r.
Proof.
  intros Hs Hd Hh Hm Hk. change [asks cap (RqQuery sql)] with ([asks cap (RqQuery sql)] ++ []).
  eapply conv_bind; [apply qry_ok; eassumption|].
  intros c d Hc Ha Hw. destruct (Hm c d Hc Hw) as (rs' & c' & E & D & S).
  exists c', []. assert (E' : on_rs m (rs_new defs None) c = (Ok a, c')) by (unfold on_rs; rewrite E; reflexivity).
  rewrite (ibind_ok _ _ _ _ _ E'), Hk. destruct S as (S1 & S2 & S3 & S4). splits; auto; try congruence.
  exists []. split; [constructor|]. rewrite S2, app_nil_r. reflexivity.
Qed.

Lemma get_var_conv {V} cap checks (from_col : option bytes -> res V) name global defs rows hd ms last :
  sendable checks (get_var_sql name global) -> defs_ok defs -> heading cap defs hd -> text_rows_wire defs rows ms ->
  last_message cap last ->
  (forall row rows', rows = row :: rows' -> (2 <= length row)%nat) ->
  conversation cap (conn_get_var checks from_col name global) [asks cap (RqQuery (get_var_sql name global))]
    (hd ++ ms ++ [last])
    (match rows with [] => Ok None | row :: _ => rmap Some (from_col (nth 1 row None)) end).
Proof.
  intros Hs Hd Hh Hr Hl H2. unfold conn_get_var.
  apply (conv_on_rs cap checks _ defs hd (ms ++ [last]) _ _
    (hd_error (map (fun row => get_col from_col row 1) rows)) _ Hs Hd Hh).
  - intros c d Hc Ha. rewrite <- Hc in Hl. destruct (text_delivers c defs None rows ms last d Hd Hr Hl Ha) as [_ D].
    destruct (D _ (fun row => get_col from_col row 1)) as (_ & _ & _ & (rs' & c' & E & D1 & S) & _). eauto.
  - intros c. destruct rows as [|row rows]; [reflexivity|]. cbn [map hd_error].
    specialize (H2 row rows eq_refl). unfold get_col. destruct row as [|x [|y row]]; cbn [length] in H2; try lia.
    cbn [nth_error nth]. unfold ibind, ilift, iret. destruct (from_col y); reflexivity.
Qed.
Lemma get_user_var_conv {V} cap checks (from_col : option bytes -> res V) name defs rows hd ms last :
  sendable checks (str "SELECT @" ++ name) -> defs_ok defs -> heading cap defs hd -> text_rows_wire defs rows ms ->
  last_message cap last ->
  conversation cap (conn_get_user_var checks from_col name) [asks cap (RqQuery (str "SELECT @" ++ name))]
    (hd ++ ms ++ [last])
    (match rows with [] => Ok None | row :: _ => rmap Some (from_col (nth 0 row None)) end).
Proof.
  intros Hs Hd Hh Hr Hl. unfold conn_get_user_var.
  apply (conv_on_rs cap checks _ defs hd (ms ++ [last]) _ _
    (hd_error (map (fun row => get_col from_col row 0) rows)) _ Hs Hd Hh).
  - intros c d Hc Ha. rewrite <- Hc in Hl. destruct (text_delivers c defs None rows ms last d Hd Hr Hl Ha) as [_ D].
    destruct (D _ (fun row => get_col from_col row 0)) as (_ & _ & _ & (rs' & c' & E & D1 & S) & _). eauto.
  - intros c. destruct rows as [|row rows]; [reflexivity|]. cbn [map hd_error].
    inversion Hr as [|? ? ? ? (Lr & _) _]; subst. destruct Hd as (Hn & _).
    unfold get_col. destruct row as [|x row]; [destruct defs; [congruence|discriminate]|].
    cbn [nth_error nth]. unfold ibind, ilift, iret. destruct (from_col x); reflexivity.
Qed.

(** binlog files *)
Lemma files_loop defs stmt files rows d : Forall2 (fun f row => binlog_file_mapper row = Ok f) files rows ->
  forall c, yields (next_row text_rows) (rs_new defs stmt) c rows d -> forall fuel acc rs, rs = rs_new defs stmt -> (length files < fuel)%nat ->
  exists rs' c', binlog_files_loop fuel acc rs c = (Ok (acc ++ files), rs', c') /\ delivered (c_rd c') = d /\ same_but_read c c'.
Proof.
  assert (G : Forall2 (fun f row => binlog_file_mapper row = Ok f) files rows -> forall rs c,
    yields (map_next_row text_rows binlog_file_mapper) rs c (map binlog_file_mapper rows) d -> forall fuel acc, (length files < fuel)%nat ->
    exists rs' c', binlog_files_loop fuel acc rs c = (Ok (acc ++ files), rs', c') /\ delivered (c_rd c') = d /\ same_but_read c c').
  { induction 1 as [|f row files rows H1 H2 IH]; intros rs c Hy fuel acc L; (destruct fuel as [|fuel]; [cbn [length] in L; lia|]);
      cbn [binlog_files_loop]; cbn [map] in Hy; inversion Hy as [? ? rs' c' ? E1 E2 E3 E4|? ? ? rs' c' ? ? E1 E2 E3]; subst; rewrite E1.
    - exists rs', c'. rewrite app_nil_r. auto.
    - rewrite H1. destruct (IH rs' c' E3 fuel (acc ++ [f])) as (rs2 & c2 & E & D & S); [cbn [length] in L; lia|].
      exists rs2, c2. rewrite E, <- app_assoc. splits; eauto using sbr_trans. }
  intros H c Hy fuel acc rs -> L. apply (G H); [apply yields_map; exact Hy|exact L].
Qed.
Lemma file_mapper f size row : utf8_valid f = true -> forall s, unsigned_text size s -> size < 2 ^ 64 ->
  binlog_file_mapper (Some f :: Some s :: row) = Ok (f, size).
Proof.
  intros Hf s Hs Hb. unfold binlog_file_mapper, get_col. cbn [nth_error].
  assert (E1 : string_from_text (Some f) = Ok (Some f)) by (unfold string_from_text, from_utf8; rewrite Hf; reflexivity).
  assert (E2 : u64_from_text (Some s) = Ok (Some size)).
  { apply (proj1 (text_unsigned 64 u64_from_text s ltac:(cbn; auto))). auto. }
  unfold non_null. rewrite E1, E2. reflexivity.
Qed.
Lemma binlog_files_conv cap checks defs files rows hd ms last : defs_ok defs -> heading cap defs hd -> text_rows_wire defs rows ms ->
  last_message cap last ->
  Forall2 (fun f row => exists s more, row = Some (fst f) :: Some s :: more /\ utf8_valid (fst f) = true /\
     unsigned_text (snd f) s /\ snd f < 2 ^ 64) files rows ->
  conversation cap (conn_binlog_files checks) [asks cap (RqQuery (str "SHOW MASTER LOGS"))] (hd ++ ms ++ [last]) (Ok files).
Proof.
  intros Hd Hh Hr Hl Hf. change [asks cap (RqQuery (str "SHOW MASTER LOGS"))] with ([asks cap (RqQuery (str "SHOW MASTER LOGS"))] ++ []).
  unfold conn_binlog_files. eapply conv_bind; [apply qry_ok; try eassumption; right; reflexivity|].
  intros c d Hc Ha Hw. rewrite <- Hc in Hl.
  assert (R : Forall2 (row_msg text_rows (rs_new defs None)) rows ms).
  { clear - Hr Hd. induction Hr as [|row m rows ms (H1 & H2 & ->) H IH]; constructor; auto using text_row_msg. }
  pose proof (rows_yield text_rows (rs_new defs None) rows ms last d eq_refl R c Hl Hw) as Y.
  pose proof (awaits_rows_fuel _ _ _ _ _ _ R Hw) as L.
  assert (F : Forall2 (fun f row => binlog_file_mapper row = Ok f) files rows).
  { clear - Hf. induction Hf as [|[f sz] row files rows (s & more & -> & U & T & B) H IH]; constructor; auto using file_mapper. }
  assert (Lf : length files = length rows) by (clear - F; induction F; cbn [length]; auto).
  destruct (files_loop defs None files rows d F c Y (S (sched_len (c_rd c))) [] _ eq_refl ltac:(lia)) as (rs' & c' & E & D & S1 & S2 & S3 & S4).
  exists c', []. unfold on_rs. rewrite E. splits; auto; try congruence.
  exists []. split; [constructor|]. rewrite S2, app_nil_r. reflexivity.
Qed.

(** setting a variable: prepare, execute, close *)
Lemma set_conv cap checks sql id params warnings ms1 arg m r :
  sendable checks sql -> id < 2 ^ 32 -> warnings < 2 ^ 16 ->
  Forall coldef_ok params -> N.of_nat (length params) < 2 ^ 16 -> defs_block cap params ms1 ->
  arg_ok arg -> sendable checks (write_stmt_execute id [to_col arg]) ->
  ok_message cap 0 m /\ r = Ok tt \/ (exists e, err_message cap m e /\ r = Err e) ->
  conversation cap (stmt <~ stmt_prepare checks sql ;; stmt_exec_close checks stmt [to_col arg])
    [asks cap (RqStmtPrepare sql); executes id [arg_value arg]; asks cap (RqStmtClose id)]
    ((prepare_ok_wire id 0 (N.of_nat (length params)) warnings :: ms1) ++ [m]) r.
Proof.
  intros Hs Hi Hw Hp Lp B1 Ha Hf Hm.
  change [asks cap (RqStmtPrepare sql); executes id [arg_value arg]; asks cap (RqStmtClose id)]
    with ([asks cap (RqStmtPrepare sql)] ++ [executes id [arg_value arg]; asks cap (RqStmtClose id)]).
  eapply (conv_bind cap _ _ _ _ (prepare_ok_wire id 0 (N.of_nat (length params)) warnings :: ms1) [m] (mk_ps id [] params warnings)).
  - rewrite <- (app_nil_r ms1). apply (prepare_ok cap checks sql id [] params warnings ms1 []); auto; try reflexivity; try constructor.
  - apply (exec_close_conv cap checks (mk_ps id [] params warnings) [to_col arg]); [exact Hi| |].
    + destruct Hm as [[_ ->]|(e & _ & ->)]; eauto.
    + destruct Hm as [[Hm ->]|(e & Hm & ->)].
      * apply (stmt_exec_ok cap checks (mk_ps id [] params warnings) [arg] [] m); auto.
      * apply (stmt_exec_err cap checks (mk_ps id [] params warnings) [arg] [] m e); auto.
Qed.

(** closing a result set *)
Lemma rs_close_stmt checks defs id c : id < 2 ^ 32 -> accepting (c_ws c) ->
  exists rs' c' m, rs_close checks (rs_new defs (Some id)) c = (Ok tt, rs', c') /\ commanded c c' [m] /\
    server_request (c_cap c) m = Some (RqStmtClose id) /\ same_but_write c c' /\
    (forall c2, rs_close checks rs' c2 = (Ok tt, rs', c2)).
Proof.
  intros Hi Ha. unfold rs_close. cbn [rs_new rs_stmt_id].
  destruct (send_ok checks c (write_stmt_close id) Ha ltac:(apply fits_small; reflexivity)) as (c1 & E1 & O1 & A1 & S1).
  rewrite E1. eexists _, c1, (write_stmt_close id). split; [reflexivity|]. splits; auto. apply sr_stmt_close. exact Hi.
Qed.
Lemma rs_close_text checks defs c : rs_close checks (rs_new defs None) c = (Ok tt, rs_new defs None, c).
Proof. reflexivity. Qed.

(** change user *)
Section ChangeUserProofs.
  Variable sha1 sha256 : bytes -> bytes.
  Lemma read_cu_ok cap m : ok_message cap 0 m -> exists p, fst (read_change_user_response cap m) = Ok (CuOk p).
  Proof.
    intros Hm. destruct (ok_message_reads _ 0 _ eq_refl Hm) as (p & Ep). destruct (ok_message_head _ _ _ Hm) as (q & Er).
    exists p. unfold read_change_user_response. rewrite Er in *. change (b2n (n2b 0) =? 255) with false.
    change (b2n (n2b 0) =? 0) with true. cbv iota. rewrite (pmap_ok _ _ _ _ _ Ep). reflexivity.
  Qed.
  Lemma read_cu_err cap m e : err_message cap m e ->
    exists p, fst (read_change_user_response cap m) = Ok (CuErr p) /\ error_of_err_packet p = e.
  Proof.
    intros Hm. destruct (err_message_reads _ _ _ Hm) as (p & Ep & Ee). destruct (err_message_head _ _ _ Hm) as (q & Er).
    exists p. split; [|exact Ee]. unfold read_change_user_response. rewrite Er in *. change (b2n xff =? 255) with true.
    cbv iota. rewrite (pmap_ok _ _ _ _ _ Ep). reflexivity.
  Qed.
  Lemma change_user_ok cap checks user pw db attrs m :
    let packet := write_change_user cap (new_change_user user [] db (str "mysql_native_password") attrs) in
    no_nul user -> no_nul db -> Forall attr_ok attrs -> str_ok (attrs_wire attrs) -> sendable checks packet ->
    forall r, (ok_message cap 0 m /\ r = Ok tt) \/ (exists e, err_message cap m e /\ r = Err e) ->
    conversation cap (conn_change_user sha1 sha256 checks user pw db attrs)
      [asks cap (RqChangeUser user [] db 33 (if cap_plugin_auth cap then Some (str "mysql_native_password") else None)
         (if cap_connect_attrs cap then Some (map (fun a => (at_key a, at_value a)) attrs) else None))] [m] r.
  Proof.
    intros packet Hu Hd Hat Hs Hf r Hm c d Hc Ha Hw. unfold conn_change_user. rewrite Hc.
    refine (conv_send cap checks packet _ _ [m] r _ _ _ c d Hc Ha Hw).
    - apply (fits_arg _ _ _ Hf). lia.
    - unfold asks, packet. rewrite sr_change_user; auto; cbn [new_change_user cu_user cu_auth cu_schema cu_plugin cu_charset cu_attrs]; try reflexivity.
      { cbn. intros H. repeat (destruct H as [H|H]; [discriminate|]). exact H. }
      destruct (cap_secure_connection cap); [reflexivity|intros []].
    - clear c d Hc Ha Hw. intros c d Hc Ha. destruct (awaits_cons _ _ _ _ Ha) as (c1 & E1 & A1 & S1). exists c1.
      splits; auto using awaits_nil. cbn [change_user_loop]. rewrite (ibind_ok _ _ _ _ _ E1), (sbr_cap _ _ S1), Hc.
      unfold parse. destruct Hm as [[Hm ->]|(e & Hm & ->)].
      + destruct (read_cu_ok _ _ Hm) as (p & ->). reflexivity.
      + destruct (read_cu_err _ _ _ Hm) as (p & -> & E). unfold ibind, ilift, ierr. rewrite E. reflexivity.
  Qed.
  Lemma change_user_unknown cap checks user pw db attrs plugin data :
    let packet := write_change_user cap (new_change_user user [] db (str "mysql_native_password") attrs) in
    no_nul user -> no_nul db -> Forall attr_ok attrs -> str_ok (attrs_wire attrs) -> sendable checks packet ->
    no_nul plugin -> utf8_valid plugin = true -> plugin <> str "mysql_native_password" -> plugin <> str "caching_sha2_password" ->
    conversation cap (conn_change_user sha1 sha256 checks user pw db attrs)
      [asks cap (RqChangeUser user [] db 33 (if cap_plugin_auth cap then Some (str "mysql_native_password") else None)
         (if cap_connect_attrs cap then Some (map (fun a => (at_key a, at_value a)) attrs) else None))]
      [switch_wire plugin data] (Err ECustom).
  Proof.
    intros packet Hu Hd Hat Hs Hf Hn Hv N1 N2 c d Hc Ha Hw. unfold conn_change_user. rewrite Hc.
    refine (conv_send cap checks packet _ _ [switch_wire plugin data] (Err ECustom) _ _ _ c d Hc Ha Hw).
    - apply (fits_arg _ _ _ Hf). lia.
    - unfold asks, packet. rewrite sr_change_user; auto; cbn [new_change_user cu_user cu_auth cu_schema cu_plugin cu_charset cu_attrs]; try reflexivity.
      { cbn. intros H. repeat (destruct H as [H|H]; [discriminate|]). exact H. }
      destruct (cap_secure_connection cap); [reflexivity|intros []].
    - clear c d Hc Ha Hw. intros c d Hc Ha. destruct (awaits_cons _ _ _ _ Ha) as (c1 & E1 & A1 & S1). exists c1.
      splits; auto using awaits_nil. cbn [change_user_loop]. rewrite (ibind_ok _ _ _ _ _ E1), (sbr_cap _ _ S1), Hc.
      unfold parse. change (read_change_user_response cap (switch_wire plugin data)) with (pmap CuSwitch read_auth_switch (switch_wire plugin data)).
      rewrite (pmap_ok _ _ _ _ _ (switch_reads plugin data Hn Hv)). cbn [fst]. erewrite ilift_bind by reflexivity. cbn [sw_plugin].
      assert (Hnew : new_auth_plugin plugin = Err ECustom).
      { unfold new_auth_plugin. destruct (beqb_spec plugin (str "mysql_native_password")); [contradiction|].
        destruct (beqb_spec plugin (str "caching_sha2_password")); [contradiction|reflexivity]. }
      rewrite Hnew. reflexivity.
  Qed.
  Lemma change_user_more cap checks user pw db attrs data c d :
    let packet := write_change_user cap (new_change_user user [] db (str "mysql_native_password") attrs) in
    sendable checks packet -> c_cap c = cap -> accepting (c_ws c) -> awaits c [more_wire data] d ->
    exists c', conn_change_user sha1 sha256 checks user pw db attrs c = (Panic PUnwrap, c').
  Proof.
    intros packet Hf Hc Ha Hw. unfold conn_change_user. rewrite Hc. fold packet.
    destruct (send_ok checks c packet Ha (fits_arg _ _ packet Hf ltac:(lia))) as (c1 & E1 & O1 & A1 & S1).
    pose proof (awaits_write _ _ _ _ Hw S1) as Hw1. destruct (awaits_cons _ _ _ _ Hw1) as (c2 & E2 & A2 & S2).
    exists c2. rewrite (ibind_ok _ _ _ _ _ E1). cbn [change_user_loop]. rewrite (ibind_ok _ _ _ _ _ E2). reflexivity.
  Qed.
  Lemma change_user_switch cap checks user pw db attrs nonce m c d :
    let packet := write_change_user cap (new_change_user user [] db (str "mysql_native_password") attrs) in
    (forall x, length (sha1 x) = 20%nat) -> pw <> [] ->
    no_nul user -> no_nul db -> Forall attr_ok attrs -> str_ok (attrs_wire attrs) -> sendable checks packet ->
    ok_message cap 0 m -> c_cap c = cap -> accepting (c_ws c) ->
    awaits_numbered c x01 (switch_wire (str "mysql_native_password") (nonce ++ [x00])) [m] d ->
    exists c' resp, conn_change_user sha1 sha256 checks user pw db attrs c = (Ok tt, c') /\
      sent c c' [packet; resp] /\ native_accepts sha1 (sha1 (sha1 pw)) nonce resp /\
      delivered (c_rd c') = d /\ c_cap c' = cap.
  Proof.
    intros packet H20 Hpw Hu Hd Hat Hs Hf Hm Hc Ha Hi. unfold conn_change_user. rewrite Hc. fold packet.
    destruct (send_ok checks c packet Ha (fits_arg _ _ packet Hf ltac:(lia))) as (c1 & E1 & (w1 & W1 & O1) & A1 & (R1 & C1 & T1)).
    rewrite (ibind_ok _ _ _ _ _ E1).
    assert (Hi1 : awaits_numbered c1 x01 (switch_wire (str "mysql_native_password") (nonce ++ [x00])) [m] d)
      by (unfold awaits_numbered; rewrite R1; exact Hi).
    destruct (incoming_first _ _ _ _ _ Hi1) as (c2 & E2 & I2 & (X1 & X2 & X3 & X4) & N2).
    pose proof (incoming_fuel sha1 sha256 _ _ _ I2) as L2.
    cbn [change_user_loop]. rewrite (ibind_ok _ _ _ _ _ E2), X3, C1, Hc.
    assert (P : fst (read_change_user_response cap (switch_wire (str "mysql_native_password") (nonce ++ [x00])))
      = Ok (CuSwitch (mk_switch 254 (str "mysql_native_password") (nonce ++ [x00])))) by reflexivity.
    unfold parse at 1. rewrite P. erewrite ilift_bind by reflexivity. cbn [sw_plugin sw_data].
    change (new_auth_plugin (str "mysql_native_password")) with (@Ok auth_plugin (Native [])). erewrite ilift_bind by reflexivity.
    destruct (native_accepted sha1 sha256 pw nonce H20 Hpw) as (resp & p1 & G & Acc & Lr). rewrite G.
    erewrite ilift_bind by reflexivity.
    assert (Lr' : blen resp = 20) by (unfold blen; rewrite Lr; reflexivity).
    destruct (send_msg_spec checks c2 resp false) as (seqs & w2 & c3 & E3 & W3 & O3 & _ & _ & _ & A3 & (R3 & C3 & T3)).
    { rewrite X1. exact A1. } { rewrite N2. reflexivity. } { right. rewrite N2, Lr'. cbn. discriminate. }
    rewrite (ibind_ok _ _ _ _ _ E3).
    assert (I3 : awaits c3 [m] d) by (unfold awaits; rewrite R3; exact I2).
    destruct (incoming_cons sha1 sha256 _ _ _ _ I3) as (c4 & E4 & I4 & (Y1 & Y2 & Y3 & Y4) & _).
    assert (Fu : exists f, sched_len (c_rd c1) = S f).
    { destruct (sched_len (c_rd c1)) eqn:Q; [|eauto]. exfalso.
      destruct Hi1 as (w & w' & Q1 & Q2 & Q3). pose proof (delivered_sched sha1 sha256 (c_rd c1)) as Q4.
      rewrite Q, Q3, !app_length in Q4. apply (message_wire_nonempty sha1 sha256) in Q1. lia. }
    destruct Fu as (f & ->). cbn [change_user_loop]. rewrite (ibind_ok _ _ _ _ _ E4), Y3, C3, X3, C1, Hc.
    unfold parse. destruct (read_cu_ok _ _ Hm) as (p & ->). exists c4, resp. splits; auto using awaits_nil; [|congruence].
    exists (w1 ++ w2). split; [|rewrite Y2, O3, X2, O1, app_assoc; reflexivity].
    inversion W1 as [|q1 q2 q3 q4 q5 Q1 Q2 Q3]; subst. inversion Q3; subst. rewrite app_nil_r.
    econstructor; [exact Q1|]. rewrite <- (app_nil_r w2). econstructor; [exact W3|constructor].
  Qed.
End ChangeUserProofs.

Lemma binary_error_like_row c c0 defs stmt body d d0 : awaits c [xff :: body] d -> awaits c0 [x00 :: body] d0 ->
  fst (fst (next_row binary_rows (rs_new defs stmt) c)) = fst (fst (next_row binary_rows (rs_new defs stmt) c0)).
Proof.
  intros Ha Hb. destruct (awaits_cons _ _ _ _ Ha) as (c1 & E1 & A1 & S1). destruct (awaits_cons _ _ _ _ Hb) as (c2 & E2 & A2 & S2).
  unfold next_row. cbn [rs_new rs_completed]. rewrite E1, E2. reflexivity.
Qed.
Lemma nil_no_message : no_message [].
Proof. intros seqs p w r H. apply (message_wire_nonempty (fun x => x) (fun x => x)) in H. destruct w; [cbn in H; lia|discriminate]. Qed.
Lemma single_wire s p : N.of_nat (length p) < full -> message_wire [s] p (wle 3 (N.of_nat (length p)) ++ s :: p).
Proof.
  intros H. constructor; [exact H|]. exists (wle 3 (N.of_nat (length p))). split; [|reflexivity]. split; [apply wle_length|].
  apply wle_val. unfold full in H. change (2 ^ (8 * N.of_nat 3)) with (2 ^ 24). lia.
Qed.
(** a stream delivering these messages in one chunk each *)
Definition chunks (ps : list bytes) : list rpoll :=
  map (fun p => RData (wle 3 (N.of_nat (length p)) ++ x01 :: p)) ps.
Lemma chunks_await ps ws out cap st nr : Forall (fun p => N.of_nat (length p) < full) ps ->
  awaits (mk_conn (chunks ps) ws out cap st nr) ps [].
Proof.
  intros H. unfold awaits. cbn [c_rd].
  assert (G : exists w, messages_wire ps w /\ delivered (chunks ps) = w).
  { induction H as [|p ps Hp H (w & W & D)]; [exists []; split; constructor|].
    exists ((wle 3 (N.of_nat (length p)) ++ x01 :: p) ++ w). split.
    - econstructor; [apply single_wire; exact Hp|exact W].
    - cbn [chunks map]. cbn [delivered]. destruct (wle 3 (N.of_nat (length p)) ++ x01 :: p) eqn:E.
      + destruct (wle 3 (N.of_nat (length p))); discriminate.
      + cbn [app]. fold (chunks ps). rewrite D. reflexivity. }
  destruct G as (w & W & D). exists w. rewrite app_nil_r. auto.
Qed.

(** ** as stated *)
Lemma qry_conv cap checks sql ps r : sendable checks sql -> answers cap (new_result_set None) ps r ->
  conversation cap (query_qry checks sql) [asks cap (RqQuery sql)] ps r.
Proof. intros Hf Hk. apply conv_send; [apply query_fits; exact Hf|apply sr_query|exact Hk]. Qed.
Lemma qry_empty cap checks sql m : sendable checks sql -> ok_message cap 0 m ->
  exists rs, conversation cap (query_qry checks sql) [asks cap (RqQuery sql)] [m] (Ok rs) /\
    forall c, delivers (next_row text_rows) rs c [] (delivered (c_rd c)).
Proof.
  intros Hf Hm. exists (rs_empty None). split; [apply qry_conv; [exact Hf|apply result_set_answers_empty; exact Hm]|].
  intros c. apply empty_delivers.
Qed.
Lemma qry_err cap checks sql m e : sendable checks sql -> err_message cap m e ->
  conversation cap (query_qry checks sql) [asks cap (RqQuery sql)] [m] (Err e).
Proof. intros Hf Hm. apply qry_conv; [exact Hf|apply result_set_answers_err; exact Hm]. Qed.
Lemma stmt_qry_ok cap checks ps args defs hd : ps_stmt_id ps < 2 ^ 32 -> Forall arg_ok args ->
  sendable checks (write_stmt_execute (ps_stmt_id ps) (map to_col args)) -> defs_ok defs -> heading cap defs hd ->
  conversation cap (stmt_qry checks ps (map to_col args)) [executes (ps_stmt_id ps) (map arg_value args)] hd
    (Ok (rs_new defs (Some (ps_stmt_id ps)))).
Proof. intros H1 H2 H3 H4 H5. apply stmt_qry_conv; auto using result_set_answers. Qed.
Lemma stmt_qry_empty cap checks ps args m : ps_stmt_id ps < 2 ^ 32 -> Forall arg_ok args ->
  sendable checks (write_stmt_execute (ps_stmt_id ps) (map to_col args)) -> ok_message cap 0 m ->
  exists rs, conversation cap (stmt_qry checks ps (map to_col args)) [executes (ps_stmt_id ps) (map arg_value args)] [m] (Ok rs) /\
    forall c, delivers (next_row binary_rows) rs c [] (delivered (c_rd c)).
Proof.
  intros H1 H2 H3 H4. exists (rs_empty (Some (ps_stmt_id ps))).
  split; [apply stmt_qry_conv; auto using result_set_answers_empty|]. intros c. apply empty_delivers.
Qed.
Lemma stmt_qry_err cap checks ps args m e : ps_stmt_id ps < 2 ^ 32 -> Forall arg_ok args ->
  sendable checks (write_stmt_execute (ps_stmt_id ps) (map to_col args)) -> err_message cap m e ->
  conversation cap (stmt_qry checks ps (map to_col args)) [executes (ps_stmt_id ps) (map arg_value args)] [m] (Err e).
Proof. intros H1 H2 H3 H4. apply stmt_qry_conv; auto using result_set_answers_err. Qed.
Lemma stmt_exec_close_conv cap checks ps args skip m r : ps_stmt_id ps < 2 ^ 32 -> Forall arg_ok args ->
  sendable checks (write_stmt_execute (ps_stmt_id ps) (map to_col args)) -> Forall skipped skip ->
  ok_message cap 0 m /\ r = Ok tt \/ (exists e, err_message cap m e /\ r = Err e) ->
  conversation cap (stmt_exec_close checks ps (map to_col args))
    [executes (ps_stmt_id ps) (map arg_value args); asks cap (RqStmtClose (ps_stmt_id ps))] (skip ++ [m]) r.
Proof.
  intros H1 H2 H3 H4 H5. apply exec_close_conv; auto.
  - destruct H5 as [[_ ->]|(e & _ & ->)]; eauto.
  - destruct H5 as [[Hm ->]|(e & Hm & ->)]; [apply stmt_exec_ok|apply stmt_exec_err]; auto.
Qed.
Lemma simple_ok cap checks cmd rq m : simple_command checks cmd rq -> ok_message cap 0 m ->
  conversation cap cmd [asks cap rq] [m] (Ok tt).
Proof. intros H Hm. apply (simple_conv cap checks _ _ _ _ H). apply recv_com_ok. exact Hm. Qed.
Lemma simple_err cap checks cmd rq m e : simple_command checks cmd rq -> err_message cap m e ->
  conversation cap cmd [asks cap rq] [m] (Err e).
Proof. intros H Hm. apply (simple_conv cap checks _ _ _ _ H). apply recv_com_err. exact Hm. Qed.
Lemma simple_other cap checks cmd rq m : simple_command checks cmd rq -> skipped m ->
  conversation cap cmd [asks cap rq] [m] (Err EConstraint).
Proof. intros H Hm. apply (simple_conv cap checks _ _ _ _ H). apply recv_com_other. exact Hm. Qed.
Lemma statistics_both cap checks m :
  conversation cap (conn_statistics checks) [asks cap RqStatistics] [m] (if utf8_valid m then Ok m else Err EUtf8) /\
  (forall e, err_message cap m e -> utf8_valid m = false).
Proof. split; [apply statistics_conv|]. apply err_not_utf8. Qed.
Lemma ping_ok_0 cap checks m : ok_message cap 0 m -> conversation cap (conn_ping checks) [asks cap RqPing] [m] (Ok tt).
Proof. apply (ping_ok cap checks 0 m). reflexivity. Qed.
Lemma get_var_spec V cap checks (from_col : option bytes -> res V) name (global : bool) defs rows hd ms last :
  let sql := str (if global then "SHOW GLOBAL VARIABLES LIKE '" else "SHOW VARIABLES LIKE '") ++ name ++ str "'" in
  sendable checks sql -> defs_ok defs -> heading cap defs hd -> text_rows_wire defs rows ms -> last_message cap last ->
  (forall row rows', rows = row :: rows' -> (2 <= length row)%nat) ->
  conversation cap (conn_get_var checks from_col name global) [asks cap (RqQuery sql)] (hd ++ ms ++ [last])
    (match rows with [] => Ok None | row :: _ => rmap Some (from_col (nth 1 row None)) end).
Proof.
  intros sql. assert (E : sql = get_var_sql name global) by (unfold sql, get_var_sql; destruct global; reflexivity).
  rewrite E. apply get_var_conv.
Qed.
Lemma set_var_spec cap checks name (global : bool) id params warnings ms1 arg m r :
  let sql := str (if global then "SET @@GLOBAL." else "SET @@") ++ name ++ str " = ?" in
  sendable checks sql -> id < 2 ^ 32 -> warnings < 2 ^ 16 ->
  Forall coldef_ok params -> N.of_nat (length params) < 2 ^ 16 -> defs_block cap params ms1 ->
  arg_ok arg -> sendable checks (write_stmt_execute id [to_col arg]) ->
  ok_message cap 0 m /\ r = Ok tt \/ (exists e, err_message cap m e /\ r = Err e) ->
  conversation cap (conn_set_var checks name (to_col arg) global)
    [asks cap (RqStmtPrepare sql); executes id [arg_value arg]; asks cap (RqStmtClose id)]
    ((prepare_ok_wire id 0 (N.of_nat (length params)) warnings :: ms1) ++ [m]) r.
Proof.
  intros sql. assert (E : sql = set_var_sql name global) by (unfold sql, set_var_sql; destruct global; reflexivity).
  rewrite E. apply set_conv.
Qed.
Lemma set_user_var_spec cap checks name id params warnings ms1 arg m r :
  let sql := str "SET @" ++ name ++ str " = ?" in
  sendable checks sql -> id < 2 ^ 32 -> warnings < 2 ^ 16 ->
  Forall coldef_ok params -> N.of_nat (length params) < 2 ^ 16 -> defs_block cap params ms1 ->
  arg_ok arg -> sendable checks (write_stmt_execute id [to_col arg]) ->
  ok_message cap 0 m /\ r = Ok tt \/ (exists e, err_message cap m e /\ r = Err e) ->
  conversation cap (conn_set_user_var checks name (to_col arg))
    [asks cap (RqStmtPrepare sql); executes id [arg_value arg]; asks cap (RqStmtClose id)]
    ((prepare_ok_wire id 0 (N.of_nat (length params)) warnings :: ms1) ++ [m]) r.
Proof. intros sql. apply set_conv. Qed.
