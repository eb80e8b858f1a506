(** * Packets are taken exactly for what their layout says *)
From Coq Require Import Lia.
From Verif Require Import Model.Base Model.BytesParser Model.LenEnc Model.Utf8 Model.Flags Model.Packet Model.Cmd Model.Time Model.Bitmap
  Model.Col Model.Row Model.Stmt Model.Event Model.EventBody Model.Rows Model.Session
  Spec.Nums Spec.LenEncSpec Spec.Wire Spec.Packets Spec.BitmapSpec Spec.Values Spec.Accepts
  Proofs.BaseLemmas Proofs.BytesParserProofs Proofs.LenEncProofs Proofs.PacketProofs Proofs.ValueProofs Proofs.AcceptsProofs.
Open Scope N_scope.

(** the parts of a record determine it *)
Ltac parts := let v := fresh "v" in intros v; destruct v; cbn in *; split;
  [let H := fresh in intros H; decompose [and] H; subst; try reflexivity; try congruence
  |let H := fresh in intros H; injection H as; subst; repeat split; auto].

Lemma ldiff_mask k n : N.ldiff n (N.ones k) = 0 <-> n < 2 ^ k.
Proof.
  rewrite N.ldiff_ones_r, N.shiftl_eq_0_iff, N.shiftr_div_pow2. pose proof (N.pow_nonzero 2 k).
  rewrite N.div_small_iff by lia. reflexivity.
Qed.
Lemma known_status_bits n : from_bits all_status n = if n <? 2 ^ 15 then Some n else None.
Proof.
  unfold from_bits. change all_status with (N.ones 15). pose proof (ldiff_mask 15 n) as H.
  destruct (N.eqb_spec (N.ldiff n (N.ones 15)) 0), (N.ltb_spec n (2 ^ 15)); try reflexivity; exfalso; intuition lia.
Qed.
Lemma te_status : takes_exactly (s <- read_le_u16 ;; status_from_bits s) (fun s w => known_status s /\ is_le 2 s w).
Proof.
  eapply te_bind with (F := fun s v w => known_status s /\ v = s /\ w = []); [apply te_u16| |].
  - intros s w0 _. unfold status_from_bits. rewrite known_status_bits. unfold known_status. destruct (N.ltb_spec s (2 ^ 15)).
    + apply te_ret. tauto.
    + apply te_fail; [discriminate|]. intros v w (X & _). lia.
  - intros v w. split.
    + intros [H1 H2]. exists v, w, []. rewrite app_nil_r. auto.
    + intros (s & w1 & w2 & -> & H1 & H2 & -> & ->). rewrite app_nil_r. auto.
Qed.
Lemma te_default {A} (a : A) : takes_exactly (pret a) (fun v w => w = [] /\ v = a).
Proof. apply te_ret. tauto. Qed.

Lemma accepts_packet : takes_exactly read_packet packet_layout.
Proof.
  unfold read_packet, packet_layout.
  apply (te_field _ (is_le 3) _ p_len); [apply te_u24|intros len].
  apply (te_field _ byte1 _ p_seq); [apply te_u8|intros seq].
  apply (te_field_if _ (fun s => N.of_nat (length s) = len) exactly _ p_payload); [apply te_len|cbv beta; intros v H; decompose [and] H; congruence|].
  intros s Hs. apply te_done. parts.
Qed.

Lemma accepts_ok cap : takes_message (read_ok_packet cap) (ok_layout cap).
Proof.
  unfold read_ok_packet, ok_layout. rewrite contains_41, contains_trans, contains_track.
  apply (tm_field _ byte1 _ ok_header); [apply te_u8|intros header].
  apply (tm_field _ lenenc_any _ ok_affected_rows); [apply te_lei_u64|intros affected].
  apply (tm_field _ lenenc_any _ ok_last_insert_id); [apply te_lei_u64|intros insert_id].
  apply (tm_field_if _ known_status (only_if (cap_protocol_41 cap || cap_transactions cap) (is_le 2) 0) _ ok_status);
    [destruct (cap_protocol_41 cap || cap_transactions cap); [apply te_status|apply te_ret]; unfold only_if, known_status; intuition (subst; try lia)
    |tauto|intros status Hs].
  apply (tm_field _ (only_if (cap_protocol_41 cap) (is_le 2) 0) _ ok_warnings);
    [destruct (cap_protocol_41 cap); [apply te_u16|apply te_default]|intros warnings].
  rewrite contains_changed. destruct (cap_session_track cap); cbn [andb].
  - apply (tm_field _ lstring _ ok_info); [apply te_les_bytes|intros info].
    apply (tm_subst _ _ (fun v => [only_if (status_session_changed status) lstring [] (ok_session_state v); leftover])).
    { intros v H. decompose [and] H. subst. reflexivity. }
    apply (tm_field _ (only_if (status_session_changed status) lstring []) _ ok_session_state);
      [destruct (status_session_changed status); [apply te_les_bytes|apply te_default]|intros state].
    apply tm_done. parts.
  - eapply tm_iff; [|apply (tm_rest _ ok_info (fun v => ((((known_status (ok_status v) /\ ok_header v = header) /\ ok_affected_rows v = affected) /\
      ok_last_insert_id v = insert_id) /\ ok_status v = status) /\ ok_warnings v = warnings /\ ok_session_state v = []))].
    + intros v w. cbv beta. rewrite !fields_cons_inv. cbn [only_if andb]. split.
      * intros (H & w1 & w2 & -> & H1 & H2). rewrite fields_nil_inv in H2. subst w2. split; [tauto|]. exists w1, []. split; [reflexivity|].
        split; [exact H1|]. apply fields_cons_inv. exists [], []. split; [reflexivity|]. split; [unfold only_if; tauto|]. apply fields_one. reflexivity.
      * intros (H & w1 & w2 & -> & H1 & H2). apply fields_cons_inv in H2. destruct H2 as (w3 & w4 & -> & [-> H3] & H4).
        rewrite fields_one in H4. red in H4. subst w4. split; [tauto|]. exists w1, []. repeat split; [exact H1|constructor].
    + intros s v. cbn [pbind pret fst]. destruct v; cbn. split; [intros [= <- <- <- <- <- <- <-]; tauto|].
      intros H. decompose [and] H. subst. reflexivity.
Qed.

Lemma accepts_err cap sql : takes_message (read_err_packet cap sql) (err_layout cap sql).
Proof.
  unfold read_err_packet, err_layout. rewrite contains_41. apply tm_true.
  apply (tm_field _ byte1 _ er_header); [apply te_u8|intros header].
  apply (tm_field _ (is_le 2) _ er_code); [apply te_u16|intros code].
  destruct (sql && cap_protocol_41 cap).
  - apply (tm_ext _ (m <- read_u8 ;; s <- read_len 5 ;; msg <- read_rest ;; pret (mk_err header code m s msg))).
    { intros bs. unfold pbind, pret. destruct (read_u8 bs) as [[] ?]; try reflexivity. destruct (read_len 5 _) as [[] ?]; reflexivity. }
    apply (tm_field _ (only_if true byte1 0) _ er_marker); [apply te_u8|intros marker].
    apply (tm_field _ (only_if true (fun s w : bytes => any 5 s /\ exactly s w) []) _ er_state).
    { eapply te_iff; [|apply te_len]. intros s w. unfold only_if, any. split; intros [H1 H2]; (split; [lia|exact H2]). }
    intros state. apply (tm_rest _ er_message). intros s v. cbn [pret fst]. destruct v; cbn. split; [intros [= <- <- <- <- <-]; tauto|].
    intros H. decompose [and] H. subst. reflexivity.
  - apply (tm_ext _ (m <- pret 0 ;; s <- pret [] ;; msg <- read_rest ;; pret (mk_err header code m s msg))); [reflexivity|].
    apply (tm_field _ (only_if false byte1 0) _ er_marker); [apply te_default|intros marker].
    apply (tm_field _ (only_if false (fun s w : bytes => any 5 s /\ exactly s w) []) _ er_state); [apply te_default|].
    intros state. apply (tm_rest _ er_message). intros s v. cbn [pret fst]. destruct v; cbn. split; [intros [= <- <- <- <- <-]; tauto|].
    intros H. decompose [and] H. subst. reflexivity.
Qed.

Lemma accepts_eof cap : takes_exactly (read_eof_packet cap) (eof_layout cap).
Proof.
  unfold read_eof_packet, eof_layout. rewrite contains_41.
  apply (te_field _ byte1 _ eof_header); [apply te_u8|intros header].
  destruct (cap_protocol_41 cap).
  - apply (te_ext _ (w <- read_le_u16 ;; s <- (s <- read_le_u16 ;; status_from_bits s) ;; pret (mk_eof header w s))).
    { intros bs. unfold pbind, pret. destruct (read_le_u16 bs) as [[] ?]; try reflexivity. destruct (read_le_u16 _) as [[] ?]; try reflexivity.
      destruct (status_from_bits _ _) as [[] ?]; reflexivity. }
    apply (te_field _ (only_if true (is_le 2) 0) _ eof_warnings); [apply te_u16|intros warnings].
    apply (te_field_if _ known_status (only_if true (is_le 2) 0) _ eof_status); [apply te_status|tauto|intros status Hs].
    apply te_done. parts.
  - apply (te_ext _ (w <- pret 0 ;; s <- pret 0 ;; pret (mk_eof header w s))); [reflexivity|].
    apply (te_field _ (only_if false (is_le 2) 0) _ eof_warnings); [apply te_default|intros warnings].
    apply (te_field_if _ known_status (only_if false (is_le 2) 0) _ eof_status); [|tauto|intros status Hs].
    + apply te_ret. unfold only_if, known_status. intuition (subst; try lia).
    + apply te_done. parts.
Qed.

Lemma utf8_ok s a : from_utf8 s = Ok a <-> utf8_valid s = true /\ a = s.
Proof. unfold from_utf8. destruct (utf8_valid s); split; try discriminate; [intros [= <-]; auto|intros [_ ->]; reflexivity|intros [X _]; discriminate]. Qed.
Lemma te_utf8 (p : parser bytes) E : takes_exactly p E ->
  takes_exactly (s <- p ;; plift (from_utf8 s)) (fun s w => utf8_valid s = true /\ E s w).
Proof.
  intros P. eapply te_bind with (F := fun s v w => utf8_valid s = true /\ v = s /\ w = []); [exact P| |].
  - intros s w0 _. unfold from_utf8. destruct (utf8_valid s).
    + apply te_ret. tauto.
    + apply te_fail; [discriminate|]. intros v w (X & _). discriminate.
  - intros v w. split.
    + intros [H1 H2]. exists v, w, []. rewrite app_nil_r. auto.
    + intros (s & w1 & w2 & -> & H1 & H2 & -> & ->). rewrite app_nil_r. auto.
Qed.

(** a header byte that has to have one value *)
Lemma fields_head b fs w : fields (byte1 (b2n b) :: fs) w <-> fields (exactly [b] :: fs) w.
Proof.
  rewrite !fields_cons_inv. split; intros (w1 & w2 & -> & H1 & H2); exists w1, w2; (split; [reflexivity|split; [|exact H2]]).
  - apply byte1_eq in H1. destruct H1 as (b' & -> & E). apply b2n_inj in E. subst. reflexivity.
  - red in H1. subst w1. apply byte1_eq. exists b. split; reflexivity.
Qed.

Lemma accepts_more : takes_message read_auth_more more_layout.
Proof.
  unfold read_auth_more, more_layout.
  eapply tm_iff; [|apply (tm_field _ byte1 _ am_header (fun v => am_header v = 1) (fun v => [exactly (am_data v)])); [apply te_u8|]].
  - intros v w. cbv beta. rewrite <- (fields_head x01). change (b2n x01) with 1. split; intros [H1 H2]; (split; [exact H1|]).
    + rewrite H1 in H2. exact H2.
    + rewrite H1. exact H2.
  - intros header. destruct (N.eqb_spec header 1) as [->|E]; cbn [negb].
    + apply (tm_rest _ am_data). intros s v. cbn [pret fst]. destruct v; cbn. split; [intros [= <- <-]; tauto|].
      intros H. decompose [and] H. subst. reflexivity.
    + apply tm_fail; [discriminate|]. intros v w (H & _). decompose [and] H. congruence.
Qed.
Lemma accepts_switch : takes_message read_auth_switch switch_layout.
Proof.
  unfold read_auth_switch, switch_layout.
  eapply tm_iff; [|apply (tm_field _ byte1 _ sw_header (fun v => sw_header v = 0xfe /\ utf8_valid (sw_plugin v) = true)
    (fun v => [cstring (sw_plugin v); exactly (sw_data v)])); [apply te_u8|]].
  - intros v w. cbv beta. rewrite <- (fields_head xfe). change (b2n xfe) with 0xfe. split.
    + intros [[H1 H2] H3]. rewrite H1 in H3. auto.
    + intros (H1 & H2 & H3). rewrite H1. auto.
  - intros header. destruct (N.eqb_spec header 0xfe) as [->|E]; cbn [negb].
    + apply (tm_field _ cstring _ sw_plugin); [apply te_until|intros name].
      apply (tm_rest _ sw_data). intros s v. unfold plift, pbind, from_utf8. destruct (utf8_valid name) eqn:U; cbn [pret fst].
      * destruct v; cbn. split; [intros [= <- <- <-]; tauto|]. intros H. decompose [and] H. subst. reflexivity.
      * split; [discriminate|]. intros H. decompose [and] H. congruence.
    + apply tm_fail; [discriminate|]. intros v w (H & _). decompose [and] H. congruence.
Qed.

Lemma two_halves cap lo hi : lo < 2 ^ 16 -> (cap mod 2 ^ 16 = lo /\ cap / 2 ^ 16 = hi <-> cap = N.lor lo (N.shiftl hi 16)).
Proof.
  intros H. assert (E : N.lor lo (N.shiftl hi 16) = 2 ^ 16 * hi + lo).
  { rewrite N.shiftl_mul_pow2, N.lor_comm, N.mul_comm. rewrite <- (N.mul_comm hi), <- N.shiftl_mul_pow2.
    symmetry. rewrite N.add_nocarry_lxor; [apply N.lxor_lor|]; apply N.bits_inj_0; intros k;
      rewrite N.land_spec; destruct (N.ltb_spec k 16); 
      [rewrite N.shiftl_spec_low by assumption; reflexivity| |rewrite N.shiftl_spec_low by assumption; reflexivity|];
      (replace (N.testbit lo k) with false; [apply andb_false_r|]; symmetry; destruct (N.eq_dec lo 0) as [->|]; [apply N.bits_0|];
       apply N.bits_above_log2; apply N.lt_le_trans with 16; [apply N.log2_lt_pow2; lia|assumption]). }
  rewrite E. split.
  - intros [<- <-]. apply N.div_mod. lia.
  - intros ->. split.
    + rewrite N.mul_comm, N.add_comm, N.mod_add by lia. apply N.mod_small. exact H.
    + rewrite N.mul_comm, N.div_add_l by lia. rewrite (N.div_small lo) by exact H. lia.
Qed.
Lemma is_le_bound k n w : is_le k n w -> n < 256 ^ N.of_nat k.
Proof. intros [<- <-]. apply le_val_bound. Qed.
Lemma te_u16_small : takes_exactly read_le_u16 (fun n w => n < 2 ^ 16 /\ is_le 2 n w).
Proof. eapply te_iff; [|apply te_u16]. intros n w. split; [|tauto]. intros H. split; [exact (is_le_bound 2 n w H)|exact H]. Qed.

Lemma accepts_greeting : takes_exactly read_initial_handshake greeting_layout.
Proof.
  unfold read_initial_handshake, greeting_layout, greeting_consistent. cbv zeta.
  apply (te_field _ byte1 _ hs_protocol_version); [apply te_u8|intros version].
  apply (te_field _ cstring _ hs_server_version); [apply te_until|intros server_version].
  apply (te_field _ (is_le 4) _ hs_connection_id); [apply te_u32|intros connection_id].
  apply (te_field_if _ (fun s => N.of_nat (length s) = 8) exactly _ hs_auth_data_1); [apply te_len| |intros data_1 Hd1].
  { intros v H. decompose [and] H. lia. }
  apply (te_skip _ (fun s w => N.of_nat (length s) = 1 /\ exactly s w)); [apply te_len|intros w; apply (any_len 1)|intros _].
  apply (te_field_if _ (fun n => n < 2 ^ 16) (is_le 2) _ (fun h => hs_capabilities h mod 2 ^ 16)); [apply te_u16_small| |intros lower Hl].
  { intros v _. apply N.mod_lt. lia. }
  apply (te_field _ byte1 _ hs_charset); [apply te_u8|intros charset].
  apply (te_field _ (is_le 2) _ hs_status); [apply te_u16|intros status].
  apply (te_field_if _ (fun n => n < 2 ^ 16) (is_le 2) _ (fun h => hs_capabilities h / 2 ^ 16)); [apply te_u16_small| |intros upper Hu].
  { intros v H. decompose [and] H. apply N.div_lt_upper_bound; lia. }
  apply (te_field _ byte1 _ hs_auth_len); [apply te_u8|intros auth_len].
  apply (te_skip _ (fun s w => N.of_nat (length s) = 10 /\ exactly s w)); [apply te_len|intros w; apply (any_len 10)|intros _].
  rewrite truncate_secure, truncate_plugin. remember (N.lor lower (N.shiftl upper 16)) as cap eqn:Ec.
  apply (te_field_if _ (fun s => if cap_secure_connection cap then 8 <= auth_len /\ N.of_nat (length s) = N.max 13 (auth_len - 8) else s = [])
    exactly _ hs_auth_data_2).
  { destruct (cap_secure_connection cap); [|apply te_ret; unfold exactly; intuition congruence].
    apply te_lift.
    - intros d Hd. unfold csub in Hd. destruct (N.ltb_spec auth_len 8); [discriminate|]. injection Hd as <-.
      eapply te_iff; [|apply te_len]. intros s w. intuition.
    - intros Hd s w ((H & _) & _). unfold csub in Hd. destruct (N.ltb_spec auth_len 8); [lia|]. exact (Hd _ eq_refl). }
  { intros v H. decompose [and] H. assert (E : hs_capabilities v = cap) by (rewrite Ec; apply two_halves; auto). match goal with X : if cap_secure_connection _ then _ else _ |- _ => rewrite E in X end. subst auth_len. assumption. }
  intros data_2 Hd2.
  apply (te_subst _ _ (fun h => [(if cap_plugin_auth cap then cstring else fun _ => exactly []) (hs_plugin h)])).
  { intros v H. decompose [and] H. assert (E : hs_capabilities v = cap) by (rewrite Ec; apply two_halves; auto). rewrite E. destruct (cap_plugin_auth cap); reflexivity. }
  apply (te_field_if _ (fun s => if cap_plugin_auth cap then utf8_valid s = true else s = []) (if cap_plugin_auth cap then cstring else fun _ => exactly []) _ hs_plugin).
  { destruct (cap_plugin_auth cap); [apply te_utf8, te_until|apply te_ret; unfold exactly; tauto]. }
  { intros v H. decompose [and] H. assert (E : hs_capabilities v = cap) by (rewrite Ec; apply two_halves; auto). match goal with X : if cap_plugin_auth _ then _ else _ |- _ => rewrite E in X end. assumption. }
  intros plugin Hp. apply te_done. intros v. split.
  - intros H. decompose [and] H. assert (E : hs_capabilities v = cap) by (rewrite Ec; apply two_halves; auto). clear Ec. destruct v; cbn in *. congruence.
  - intros ->. cbn [hs_protocol_version hs_server_version hs_connection_id hs_auth_data_1 hs_charset hs_status hs_capabilities hs_auth_len hs_auth_data_2 hs_plugin].
    destruct (proj2 (two_halves cap lower upper Hl) Ec) as [E1 E2].
    assert (B : cap < 2 ^ 32) by (rewrite (N.div_mod cap (2 ^ 16)), E1, E2 by lia; lia).
    repeat split; auto. lia.
Qed.

(** ** Replies announced by their first byte *)
Lemma starts_cons b c w : starts_with b (c :: w) <-> c = b.
Proof. unfold starts_with. split; [intros (w' & [= -> _]); reflexivity|intros ->; eauto]. Qed.
Lemma starts_nil b : starts_with b [] -> False.
Proof. intros (w & X). discriminate. Qed.
Lemma fst_pmap {A B} (f : A -> B) (p : parser A) bs v : fst (pmap f p bs) = Ok v <-> exists a, v = f a /\ fst (p bs) = Ok a.
Proof.
  unfold pmap, pbind, pret. destruct (p bs) as [[a|e|x|] rest]; cbn; split; try discriminate; try (intros (a0 & _ & X); discriminate).
  - intros [= <-]. eauto.
  - intros (b & -> & [= <-]). reflexivity.
Qed.
Lemma more_starts p w : more_layout p w -> starts_with x01 w.
Proof. intros (_ & H). apply fields_cons_inv in H. destruct H as (w1 & w2 & -> & -> & _). exists w2. reflexivity. Qed.
Lemma switch_starts p w : switch_layout p w -> starts_with xfe w.
Proof. intros (_ & _ & H). apply fields_cons_inv in H. destruct H as (w1 & w2 & -> & -> & _). exists w2. reflexivity. Qed.
Lemma b2n_is b c : (b2n b =? b2n c) = true <-> b = c.
Proof. rewrite N.eqb_eq. split; [apply b2n_inj|congruence]. Qed.

(** the layout announces [b], so it does not announce another byte *)
Lemma starts_unique b c w : starts_with b w -> starts_with c w -> b = c.
Proof. intros (w1 & ->) (w2 & [= -> _]). reflexivity. Qed.
Ltac announced := match goal with
  | S : starts_with _ [] |- _ => destruct (starts_nil _ S)
  | S : starts_with ?b (?c :: _) |- _ => apply starts_cons in S; subst; try discriminate; try congruence
  end.
Ltac eof_more := match goal with
  | X : more_layout _ _ |- _ => apply more_starts in X
  | X : switch_layout _ _ |- _ => apply switch_starts in X
  | X : _ /\ _ |- _ => destruct X
  end.
(** [pick c]: is the first byte [c]? *)
Ltac pick b c H := let k := eval compute in (b2n c) in destruct (N.eqb_spec (b2n b) k) as [H|H];
  [change k with (b2n c) in H; apply b2n_inj in H; subst b|assert (b <> c) by (intros ->; apply H; reflexivity)].
Ltac no_reply := exfalso; repeat eof_more; announced.
Ltac wrong_reply := exfalso; repeat eof_more; announced; fail.
Ltac reply L v := rewrite fst_pmap; split;
  [let p := fresh "p" in let X := fresh "X" in intros (p & -> & X); apply L in X;
   first [exact X|split; [apply starts_cons; reflexivity|exact X]]
  |let X := fresh "X" in destruct v; intros X; cbn -[ok_layout err_layout eof_layout more_layout switch_layout coldef_layout] in X;
   try wrong_reply; eexists; split; [reflexivity|apply L; apply X]].
Ltac empty_reply v := split; [discriminate|]; let X := fresh "X" in destruct v; intros X; cbn in X; no_reply.
Ltac other_reply v := split; [discriminate|]; let X := fresh "X" in destruct v; intros X; cbn in X; no_reply.

Lemma accepts_handshake_message cap : takes_message (read_handshake_message cap) (handshake_message_layout cap).
Proof.
  intros msg v. destruct msg as [|b msg]; [empty_reply v|]. cbn [read_handshake_message].
  pick b x00 E0; [reply (accepts_ok cap) v|].
  pick b x01 E1; [reply accepts_more v|].
  pick b xff E2; [reply (accepts_err cap false) v|].
  pick b xfe E3; [reply accepts_switch v|]. other_reply v.
Qed.
Lemma accepts_com_response cap : takes_message (read_com_response cap) (com_response_layout cap).
Proof.
  intros msg v. destruct msg as [|b msg]; [empty_reply v|]. cbn [read_com_response].
  pick b x00 E0; [reply (accepts_ok cap) v|].
  pick b xff E2; [reply (accepts_err cap true) v|]. other_reply v.
Qed.
Lemma accepts_change_user cap : takes_message (read_change_user_response cap) (change_user_layout cap).
Proof.
  intros msg v. destruct msg as [|b msg]; [empty_reply v|]. cbn [read_change_user_response].
  pick b xff E2; [reply (accepts_err cap true) v|].
  pick b x00 E0; [reply (accepts_ok cap) v|].
  pick b x01 E1; [reply accepts_more v|].
  pick b xfe E3; [reply accepts_switch v|]. other_reply v.
Qed.
