(** * Requests for a binlog: proofs *)
From Coq Require Import Lia ZArith.
From Verif Require Import Model.Base Model.BytesParser Model.Utf8 Model.Flags Model.Cmd
  Spec.Nums Spec.Accepts Spec.AcceptsEvents Spec.DumpRequests
  Proofs.BaseLemmas Proofs.BytesParserProofs Proofs.AcceptsProofs Proofs.AcceptsPackets Proofs.AcceptsRows Proofs.AcceptsEvents Proofs.AcceptsValues.
Open Scope N_scope.

Lemma code_command b c : command_of b = Some c <-> b2n b = command_byte c.
Proof. destruct b; destruct c; cbn; split; intros H; try discriminate; reflexivity. Qed.
Lemma te_command : takes_exactly read_command (fun c w => byte1 (command_byte c) w).
Proof.
  eapply te_bind with (F := fun b c w => command_of b = Some c /\ w = []); [apply te_byte| |].
  - intros b w _. destruct (command_of b) as [c|]; [apply te_ret; intros v w'; split; intros [H ->]; split; congruence|].
    apply te_fail; [discriminate|]. intros v w' [H _]. discriminate.
  - intros c w. rewrite byte1_eq. split.
    + intros (b & -> & H). exists b, [b], []. repeat split. apply code_command. symmetry. exact H.
    + intros (b & w1 & w2 & -> & -> & H & ->). exists b. split; [reflexivity|]. symmetry. apply code_command. exact H.
Qed.
Lemma accepts_dump : takes_message read_binlog_dump dump_layout.
Proof.
  unfold read_binlog_dump.
  assert (Z : takes_message (cmd <- read_command ;; pos <- read_le_u32 ;; flags <- read_le_u16 ;; server_id <- read_le_u32 ;; filename <- read_rest ;;
      filename <- plift (from_utf8 filename) ;; pret (mk_bd cmd pos flags server_id filename))
    (fun d w => utf8_valid (bd_filename d) = true /\ fields [byte1 (command_byte (bd_cmd d)); is_le 4 (bd_pos d); is_le 2 (bd_flags d); is_le 4 (bd_server_id d); exactly (bd_filename d)] w)).
  2:{ exact Z. }
  apply (tm_field _ (fun c => byte1 (command_byte c)) _ bd_cmd); [apply te_command|intros x1].
  apply (tm_field _ (is_le 4) _ bd_pos); [apply te_u32|intros x2].
  apply (tm_field _ (is_le 2) _ bd_flags); [apply te_u16|intros x3].
  apply (tm_field _ (is_le 4) _ bd_server_id); [apply te_u32|intros x4].
  apply tm_rest. intros s v. unfold pbind, plift, from_utf8. destruct (utf8_valid s) eqn:U; cbn [pret fst].
  - split; [intros [= <-]; cbn; auto 6|]. intros (((((_ & <-) & <-) & <-) & <-) & <-). destruct v; reflexivity.
  - split; [discriminate|]. intros (((((H & <-) & <-) & <-) & <-) & <-). congruence.
Qed.
Lemma te_i64 : takes_exactly read_le_i64 i64_layout.
Proof.
  apply (te_map (to_signed 64) _ _ _ te_u64). intros z w. unfold i64_layout. split; intros (n & A & B).
  - exists n. apply is_le_bound in A as B2. split; [|exact A]. apply (twos_unique 64 n); [lia|exact B|]. apply (to_signed_twos 64); [lia|exact B2].
  - subst z. exists n. split; [exact B|]. apply is_le_bound in B. apply (to_signed_twos 64); [lia|exact B].
Qed.
Lemma te_interval : takes_exactly (start <- read_le_i64 ;; end_ <- read_le_i64 ;; pret (start, end_)) interval_layout.
Proof.
  apply te_true. unfold interval_layout. apply (te_field _ i64_layout _ fst); [apply te_i64|intros a]. apply (te_field _ i64_layout _ snd); [apply te_i64|intros b].
  apply te_done. intros [x y]. cbn. split; [intros ((_ & ->) & ->); reflexivity|intros [= -> ->]; auto].
Qed.
Lemma te_source : takes_exactly read_sid_range source_layout.
Proof.
  unfold read_sid_range, source_layout. apply (te_field _ (is_le 16) _ sid_id); [apply te_u128|intros id].
  eapply te_bind with (F := fun n s w => (16 * n < 2 ^ 63 /\ sid_id s = id) /\ N.of_nat (length (sid_intervals s)) = n /\ fields (map interval_layout (sid_intervals s)) w); [apply te_u64| |].
  - intros n w _. eapply te_iff; [|apply (te_capacity 16 n _ (fun s w => sid_id s = id /\ N.of_nat (length (sid_intervals s)) = n /\ fields (map interval_layout (sid_intervals s)) w))].
    + intros v w'. cbv beta. tauto.
    + apply (te_map (mk_sid id) _ _ _ (te_repeat _ _ (N.to_nat n) te_interval)). intros [i l] w'. cbn [sid_id sid_intervals]. split.
      * intros (-> & L & H). exists l. split; [reflexivity|]. split; [lia|exact H].
      * intros (l' & [= -> ->] & L & H). split; [reflexivity|]. split; [lia|exact H].
  - intros s w. cbn [app]. rewrite fields_cons_inv. split.
    + intros ((B & E) & w1 & w2 & -> & L & H). exists (N.of_nat (length (sid_intervals s))), w1, w2. auto 8.
    + intros (n & w1 & w2 & -> & L & (B & E) & <- & H). split; [auto|]. exists w1, w2. auto.
Qed.
Lemma te_sources : takes_exactly read_sid_data sources_layout.
Proof.
  unfold read_sid_data, sources_layout.
  eapply te_bind with (F := fun n l w => 40 * n < 2 ^ 63 /\ N.of_nat (length l) = n /\ fields (map source_layout l) w); [apply te_u64| |].
  - intros n w _. eapply te_iff; [|apply (te_capacity 40 n _ (fun l w => N.of_nat (length l) = n /\ fields (map source_layout l) w))].
    + intros v w'. cbv beta. tauto.
    + eapply te_iff; [|apply (te_repeat _ _ (N.to_nat n) te_source)]. intros l w'. cbv beta. split; intros [L H]; (split; [lia|exact H]).
  - intros l w. rewrite fields_cons_inv. split.
    + intros (B & w1 & w2 & -> & L & H). exists (N.of_nat (length l)), w1, w2. auto 6.
    + intros (n & w1 & w2 & -> & L & B & <- & H). split; [exact B|]. exists w1, w2. auto.
Qed.
Lemma te_name : takes_exactly (n <- read_le_u32 ;; s <- read_len n ;; plift (from_utf8 s)) (fun s w => utf8_valid s = true /\ behind_length (is_le 4) s w).
Proof.
  eapply te_bind with (F := fun n s w => utf8_valid s = true /\ N.of_nat (length s) = n /\ w = s); [apply te_u32| |].
  - intros n w _. eapply te_bind with (F := fun s v w => utf8_valid s = true /\ v = s /\ w = []); [apply te_len| |].
    + intros s w' _ bs v rest. unfold plift, from_utf8. destruct (utf8_valid s); (split; [|intros (w0 & E & U & -> & ->); try discriminate; rewrite E; reflexivity]); [|discriminate].
      intros [= <- <-]. exists []. auto.
    + intros v w'. split; [intros (U & L & ->); exists v, v, []; rewrite app_nil_r; repeat split; assumption|].
      intros (s & w1 & w2 & -> & [L ->] & U & -> & ->). rewrite app_nil_r. auto.
  - intros v w. split; [intros (U & l & L & ->); exists (N.of_nat (length v)), l, v; auto 6|]. intros (n & w1 & w2 & -> & L & U & <- & ->). split; [exact U|]. exists w1. auto.
Qed.
Lemma te_block : takes_exactly (n <- read_le_u32 ;; s <- read_len n ;; plift (fst (read_sid_data s))) sources_block.
Proof.
  unfold sources_block.
  eapply te_bind with (F := fun n l w => N.of_nat (length w) = n /\ fields [sources_layout l; leftover] w); [apply te_u32| |].
  - intros n w _. eapply te_bind with (F := fun s l w => fields [sources_layout l; leftover] s /\ w = []); [apply te_len| |].
    + intros s w' _ bs v rest. unfold plift. pose proof (tm_of _ _ te_sources s v) as T. split.
      * intros [= E <-]. exists []. split; [reflexivity|]. split; [apply T; exact E|reflexivity].
      * intros (w0 & -> & H & ->). apply T in H. rewrite H. reflexivity.
    + intros v w'. split; [intros (L & H); exists w', w', []; rewrite app_nil_r; repeat split; assumption|].
      intros (s & w1 & w2 & -> & [L ->] & H & ->). rewrite app_nil_r. auto.
  - intros v w. split; [intros (block & (l & L & ->) & H); exists (N.of_nat (length block)), l, block; auto 6|]. intros (n & w1 & w2 & -> & L & <- & H). exists w2. split; [exists w1; auto|exact H].
Qed.
Lemma te_dump_flags : takes_exactly (f <- read_le_u16 ;; match from_bits all_gtid_flags f with Some f => pret f | None => pfail EConstraint end) (fun f w => f < 8 /\ is_le 2 f w).
Proof.
  eapply te_bind with (F := fun f g w => f < 8 /\ g = f /\ w = []); [apply te_u16| |].
  - intros f w _. unfold from_bits. change all_gtid_flags with (N.ones 3). pose proof (ldiff_mask 3 f) as H. change (2 ^ 3) with 8 in H. destruct (N.eqb_spec (N.ldiff f (N.ones 3)) 0) as [e|e].
    + apply te_ret. intros v w'. apply H in e. tauto.
    + apply te_fail; [discriminate|]. intros v w' [X _]. apply H in X. contradiction.
  - intros g w. split; [intros [B H]; exists g, w, []; rewrite app_nil_r; auto 6|]. intros (f & w1 & w2 & -> & H & B & -> & ->). rewrite app_nil_r. auto.
Qed.
Definition dump_gtid_parts : parser binlog_dump_gtid :=
  cmd <- read_command ;;
  flags <- (f <- read_le_u16 ;; match from_bits all_gtid_flags f with Some f => pret f | None => pfail EConstraint end) ;;
  server_id <- read_le_u32 ;;
  filename <- (n <- read_le_u32 ;; s <- read_len n ;; plift (from_utf8 s)) ;;
  pos <- read_le_u64 ;;
  sids <- (n <- read_le_u32 ;; s <- read_len n ;; plift (fst (read_sid_data s))) ;;
  pret (mk_bdg cmd flags server_id filename pos sids).
Lemma dump_gtid_eq bs : read_binlog_dump_gtid bs = dump_gtid_parts bs.
Proof.
  unfold read_binlog_dump_gtid, dump_gtid_parts. apply bind_cong. intros cmd r1 _. rewrite <- bind_assoc. apply bind_cong. intros f r2 _.
  destruct (from_bits all_gtid_flags f) as [flags|]; [|reflexivity]. rewrite ret_bind. apply bind_cong. intros server r3 _.
  rewrite <- bind_assoc. apply bind_cong. intros n r4 _. rewrite <- bind_assoc. apply bind_cong. intros s r5 _. apply bind_cong. intros name r6 _. apply bind_cong. intros pos r7 _.
  rewrite <- bind_assoc. apply bind_cong. intros n' r8 _. rewrite <- bind_assoc. reflexivity.
Qed.
Lemma accepts_dump_gtid : takes_exactly read_binlog_dump_gtid dump_gtid_layout.
Proof.
  apply (te_ext _ dump_gtid_parts _ dump_gtid_eq). unfold dump_gtid_parts, dump_gtid_layout.
  apply (te_field _ (fun c => byte1 (command_byte c)) _ bg_cmd); [apply te_command|intros x1].
  apply (te_field_if _ (fun f => f < 8) (is_le 2) _ bg_flags); [apply te_dump_flags|intros v [[B _] _]; exact B|intros x2 B2].
  apply (te_field _ (is_le 4) _ bg_server_id); [apply te_u32|intros x3].
  apply (te_field_if _ (fun s => utf8_valid s = true) (behind_length (is_le 4)) _ bg_filename); [apply te_name|intros v [[[[_ U] _] _] _]; exact U|intros x4 U4].
  apply (te_field _ (is_le 8) _ bg_pos); [apply te_u64|intros x5].
  apply (te_field _ sources_block _ bg_sids); [apply te_block|intros x6].
  apply te_done. intros [cmd flags server file pos sids]. cbn [bg_cmd bg_flags bg_server_id bg_filename bg_pos bg_sids]. split.
  - intros ((((((_ & ->) & ->) & ->) & ->) & ->) & ->). reflexivity.
  - intros [= -> -> -> -> -> ->]. auto 10.
Qed.

(** ** Builders *)
Lemma last_said_app {C A} (says : C -> option A) a l c : last_said says a (l ++ [c]) = match says c with Some x => x | None => last_said says a l end.
Proof. unfold last_said. rewrite fold_left_app. reflexivity. Qed.
Lemma dump_calls calls : fold_left (fun d c => dump_run c d) calls default_binlog_dump = dump_asked calls.
Proof.
  induction calls as [|c calls IH] using rev_ind; [reflexivity|]. rewrite fold_left_app. cbn [fold_left]. rewrite IH. unfold dump_asked. rewrite !last_said_app.
  destruct c; reflexivity.
Qed.
Lemma gtid_calls calls : fold_left (fun d c => gtid_run c d) calls default_binlog_dump_gtid = gtid_asked calls.
Proof.
  induction calls as [|c calls IH] using rev_ind; [reflexivity|]. rewrite fold_left_app. cbn [fold_left]. rewrite IH. unfold gtid_asked. rewrite !last_said_app, flat_map_app. cbn [flat_map]. rewrite app_nil_r.
  destruct c as [n|s|n|b|b|s|l]; cbn [gtid_run gsays_pos gsays_file gsays_server gsays_non_block gsays_use_gtid gsids];
    rewrite ?app_nil_r; try reflexivity;
    unfold bg_non_block, bg_use_gtid; cbn [bg_cmd bg_flags bg_server_id bg_filename bg_pos bg_sids]; f_equal;
    destruct b, (last_said gsays_use_gtid false calls), (last_said gsays_non_block false calls); reflexivity.
Qed.
