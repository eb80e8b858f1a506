(** * The other event bodies, and whole events *)
From Coq Require Import Lia.
From Verif Require Import Model.Base Model.BytesParser Model.LenEnc Model.Utf8 Model.Flags Model.Cmd Model.Bitmap
  Model.Col Model.Row Model.Event Model.EventBody Model.Rows
  Spec.Nums Spec.LenEncSpec Spec.Wire Spec.Accepts Spec.AcceptsEvents
  Proofs.BaseLemmas Proofs.BytesParserProofs Proofs.LenEncProofs Proofs.PacketProofs
  Proofs.EventProofs Proofs.AcceptsProofs Proofs.AcceptsPackets Proofs.AcceptsRows Proofs.AcceptsEvents.
Open Scope N_scope.

Lemma accepts_block : takes_message read_create_file block_layout /\ takes_message read_append_block block_layout.
Proof.
  split; unfold read_create_file, read_append_block, block_layout; apply tm_true;
    (apply (tm_field _ (is_le 4) _ fst); [apply te_u32|intros id]);
    apply (tm_last _ (fun v => padded_rest (snd v))); intros s v; unfold pbind, plift;
    rewrite <- (until_ok s (snd v)); (destruct (until_nul s) as [file|? |?|]; cbn [pret fst]; [|split; [discriminate|intros [_ X]; discriminate]..]);
    destruct v; cbn; (split; [intros [= <- <-]; auto|intros [[_ ->] [= ->]]; reflexivity]).
Qed.
Lemma accepts_whole_block : takes_message read_begin_load_query whole_block_layout.
Proof.
  unfold read_begin_load_query, whole_block_layout. apply tm_true. apply (tm_field _ (is_le 4) _ fst); [apply te_u32|intros p].
  to_end (@snd N bytes).
Qed.
Lemma accepts_execute_load_query : takes_message read_execute_load_query execute_load_query_layout.
Proof.
  unfold read_execute_load_query, execute_load_query_layout. apply tm_true.
  apply (tm_field _ (is_le 4) _ elq_slave_proxy_id); [apply te_u32|intros x1].
  apply (tm_field _ (is_le 4) _ elq_execution_time); [apply te_u32|intros x2].
  apply (tm_field _ byte1 _ elq_schema_length); [apply te_u8|intros x3].
  apply (tm_field _ (is_le 2) _ elq_error_code); [apply te_u16|intros x4].
  apply (tm_field _ (is_le 2) _ elq_status_vars_length); [apply te_u16|intros x5].
  apply (tm_field _ (is_le 4) _ elq_file_id); [apply te_u32|intros x6].
  apply (tm_field _ (is_le 4) _ elq_start_pos); [apply te_u32|intros x7].
  apply (tm_field _ (is_le 4) _ elq_end_pos); [apply te_u32|intros x8].
  apply (tm_field _ byte1 _ elq_dup_handling_flags); [apply te_u8|intros x9].
  to_end elq_payload.
Qed.
Lemma accepts_query : takes_message read_query_data query_layout.
Proof.
  unfold read_query_data, query_layout.
  apply (tm_field _ (is_le 4) _ q_slave_proxy_id); [apply te_u32|intros x1].
  apply (tm_field _ (is_le 4) _ q_exec_time); [apply te_u32|intros x2].
  apply (tm_field _ byte1 _ q_schema_len); [apply te_u8|intros x3].
  apply (tm_field _ (is_le 2) _ q_error_code); [apply te_u16|intros x4].
  apply (tm_field _ (is_le 2) _ q_status_vars_len); [apply te_u16|intros x5].
  apply (tm_field_if _ (fun s : bytes => N.of_nat (length s) = x5) exactly _ q_status_vars); [apply te_len|intuition congruence|intros x6 H6].
  apply (tm_field_if _ (fun s : bytes => N.of_nat (length s) = x3) exactly _ q_schema); [apply te_len|intuition congruence|intros x7 H7].
  eapply tm_skip; [apply (te_len 1)|apply (any_len 1)|intros _].
  apply (tm_rest _ q_query). intros s v. cbn [pret fst]. destruct v; cbn. split.
  - intros X. injection X as; subst. repeat split; assumption.
  - intros X. decompose [and] X. subst. reflexivity.
Qed.

(** ** Status variables *)
Lemma status_not_empty v : ~ status_var_layout v [].
Proof. destruct v; cbn [status_var_layout]; apply fields_lit0. Qed.
Ltac the_var := let v := fresh in intros v; destruct v; cbn [status_var_layout]; rewrite fields_lit.
Lemma te_var {A} (wrap : A -> status_var) (p : parser A) (E : A -> bytes -> Prop) b :
  takes_exactly p E -> (forall v w, status_var_layout v (b :: w) <-> exists a, v = wrap a /\ E a w) ->
  takes_exactly (pmap wrap p) (fun v w => status_var_layout v (b :: w)).
Proof. intros P H. apply (te_map wrap p E _ P). exact H. Qed.
Ltac var_iff := let v := fresh "v" in let w := fresh "w" in intros v w; split;
  [destruct v; cbn [status_var_layout]; rewrite fields_lit, ?fields_one;
   let X := fresh in let E := fresh in intros [E X]; try discriminate E; eexists; (split; [reflexivity|exact X])
  |let a := fresh "a" in let X := fresh in intros (a & -> & X); cbn [status_var_layout]; rewrite fields_lit, ?fields_one; split; [reflexivity|exact X]].
Lemma accepts_status_var : takes_exactly read_status_var status_var_layout.
Proof.
  apply te_byte_then; [|exact status_not_empty].
  intros b. destruct b;
    try (apply te_fail; [discriminate|intros v w; destruct v; cbn [status_var_layout]; rewrite fields_lit; intros [X _]; discriminate]).
  - apply (te_var SvFlags2 _ _ _ te_u32). var_iff.
  - apply (te_var SvSqlMode _ _ _ te_u64). var_iff.
  - change (b2n x02) with 2. cbv iota.
    apply (te_ext _ (pmap SvCatalog (s <- (n <- read_u8 ;; read_len n) ;; read_len 1 ;;; pret s))).
    { intros bs. unfold pmap, pbind, pret. destruct (read_u8 bs) as [[n|? |?|] r]; try reflexivity. destruct (read_len n r) as [[s|? |?|] r2]; try reflexivity.
      destruct (read_len 1 r2) as [[] ?]; reflexivity. }
    eapply te_var with (E := fun s w => fields [behind_length byte1 s; any 1] w); [|var_iff].
    apply te_true. apply (te_field _ (behind_length byte1) _ (fun s => s)); [apply te_prefixed, te_u8|intros s].
    eapply te_skip; [apply (te_len 1)|apply (any_len 1)|intros _]. apply te_done. intros v. tauto.
  - change (b2n x03) with 3. cbv iota.
    eapply te_iff; [|args]. intros v w. cbv beta. split; [intros H; dex; cbn [status_var_layout]; apply fields_lit; auto|].
    destruct v; cbn [status_var_layout]; rewrite fields_lit; intros [X H]; try discriminate X. build.
  - change (b2n x04) with 4. cbv iota.
    eapply te_iff; [|args]. intros v w. cbv beta. split; [intros H; dex; cbn [status_var_layout]; apply fields_lit; auto|].
    destruct v; cbn [status_var_layout]; rewrite fields_lit; intros [X H]; try discriminate X. build.
  - change (b2n x05) with 5. cbv iota. eapply te_ext; [intros bs; apply bind_assoc|]. apply (te_var SvTimeZone _ _ _ (te_prefixed _ _ te_u8)). var_iff.
  - change (b2n x06) with 6. cbv iota. eapply te_ext; [intros bs; apply bind_assoc|]. apply (te_var SvCatalogNz _ _ _ (te_prefixed _ _ te_u8)). var_iff.
  - apply (te_var SvLcTimeNames _ _ _ te_u16). var_iff.
  - apply (te_var SvCharsetDatabase _ _ _ te_u16). var_iff.
  - apply (te_var SvTableMapForUpdate _ _ _ te_u64). var_iff.
  - apply (te_var SvMasterDataWritten _ _ _ te_u32). var_iff.
  - change (b2n x0b) with 11. cbv iota.
    apply (te_ext _ (u <- (n <- read_u8 ;; read_len n) ;; h <- (n <- read_u8 ;; read_len n) ;; pret (SvInvokers u h))).
    { intros bs. rewrite <- bind_assoc. unfold pbind. destruct (read_u8 bs) as [[n|? |?|] r]; try reflexivity. destruct (read_len n r) as [[s|? |?|] r2]; try reflexivity.
      destruct (read_u8 r2) as [[m|? |?|] r3]; reflexivity. }
    eapply te_iff; [|eapply te_arg; [apply (te_prefixed _ _ te_u8)|intros u; eapply te_arg; [apply (te_prefixed _ _ te_u8)|intros h; apply te_end]]].
    intros v w. cbv beta. split; [intros H; dex; cbn [status_var_layout]; apply fields_lit; auto|].
    destruct v; cbn [status_var_layout]; rewrite fields_lit; intros [X H]; try discriminate X. build.
  - change (b2n x0c) with 12. cbv iota.
    eapply te_bind with (F := fun n v w => exists l, v = SvUpdatedDbNames l /\ n = N.of_nat (length l) /\ fields (map cstring l) w); [apply te_u8| |].
    + intros n w0 _. eapply te_map; [apply te_repeat, te_until|]. intros v w. cbv beta. split.
      * intros (l & -> & -> & H). exists l. repeat split; [lia|exact H].
      * intros (l & -> & L & H). exists l. repeat split; [lia|exact H].
    + intros v w. split.
      * destruct v; cbn [status_var_layout]; rewrite fields_lit; intros [X H]; try discriminate X.
        apply fields_cons_inv in H. destruct H as (w1 & w2 & -> & H1 & H2). eexists _, w1, w2. split; [reflexivity|]. split; [exact H1|]. eauto.
      * intros (n & w1 & w2 & -> & H1 & l & -> & -> & H2). cbn [status_var_layout]. apply fields_lit. split; [reflexivity|]. constructor; assumption.
  - apply (te_var SvMicroSeconds _ _ _ te_u24). var_iff.
Qed.
(** a loop to the end of the input *)
Lemma tm_while {A} (p : parser A) E : takes_exactly p E -> (forall v, ~ E v []) ->
  takes_message (while_remaining p) (fun vs w => fields (map E vs) w).
Proof.
  intros P N msg vs. unfold while_remaining. remember (length msg) as k eqn:L. assert (L' : (length msg <= k)%nat) by lia. clear L.
  revert msg vs L'. induction k as [|k IH]; intros msg vs L.
  - destruct msg; [|cbn in L; lia]. cbn. split; [intros [= <-]; constructor|].
    intros H. destruct vs as [|v vs]; [reflexivity|]. cbn [map] in H. apply fields_cons_inv in H. destruct H as (w1 & w2 & X & H & _).
    symmetry in X. apply app_eq_nil in X. destruct X as [-> _]. destruct (N _ H).
  - destruct msg as [|b msg].
    { cbn. split; [intros [= <-]; constructor|].
      intros H. destruct vs as [|v vs]; [reflexivity|]. cbn [map] in H. apply fields_cons_inv in H. destruct H as (w1 & w2 & X & H & _).
      symmetry in X. apply app_eq_nil in X. destruct X as [-> _]. destruct (N _ H). }
    cbn [pwhile]. remember (b :: msg) as m eqn:Em. unfold pbind, pret. split.
    + destruct (p m) as [[a|? |?|] r] eqn:X; try discriminate. apply P in X. destruct X as (w & E1 & Ea).
      assert (Lr : (length r <= k)%nat).
      { destruct w as [|c w]; [destruct (N _ Ea)|]. apply (f_equal (@length byte)) in E1. rewrite app_length in E1. cbn [length] in E1. lia. }
      specialize (IH r). destruct (pwhile k p r) as [[l|? |?|] r2]; try discriminate. intros [= <-]. rewrite E1. cbn [map]. constructor; [exact Ea|].
      apply IH; [exact Lr|reflexivity].
    + intros H. destruct vs as [|a l]; [cbn [map] in H; apply fields_nil_inv in H; congruence|]. cbn [map] in H.
      apply fields_cons_inv in H. destruct H as (w & r & E1 & Ea & H).
      assert (X : p m = (Ok a, r)) by (apply P; eauto). rewrite X.
      assert (Lr : (length r <= k)%nat).
      { destruct w as [|c w]; [destruct (N _ Ea)|]. apply (f_equal (@length byte)) in E1. rewrite app_length in E1. cbn [length] in E1. lia. }
      apply IH in H; [|exact Lr]. destruct (pwhile k p r) as [r1 r2]. cbn [fst] in H. subst r1. reflexivity.
Qed.
Lemma accepts_status_vars : takes_message read_status_vars status_vars_layout.
Proof. apply tm_while; [exact accepts_status_var|exact status_not_empty]. Qed.

(** ** Table maps and rows *)
Lemma accepts_table_map : takes_message read_table_map_data table_map_layout.
Proof.
  unfold read_table_map_data, table_map_layout. apply tm_true.
  apply (tm_field _ (is_le 6) _ tmd_table_id); [apply te_u48|intros x1].
  apply (tm_field _ (is_le 2) _ tmd_flags); [apply te_u16|intros x2]. to_end tmd_payload.
Qed.
Lemma accepts_write_v1 : takes_message read_write_rows_v1 rows_v1_layout.
Proof.
  unfold read_write_rows_v1, rows_v1_layout. apply tm_true.
  apply (tm_field _ (is_le 6) _ rd1_table_id); [apply te_u48|intros x1].
  apply (tm_field _ (is_le 2) _ rd1_flags); [apply te_u16|intros x2]. to_end rd1_payload.
Qed.
Lemma accepts_rows_v1 : takes_message read_write_rows_v1 rows_v1_layout /\ takes_message read_update_rows_v1 rows_v1_layout /\ takes_message read_delete_rows_v1 rows_v1_layout.
Proof.
  split; [exact accepts_write_v1|]. split;
    (apply (tm_map (fun wrd => mk_rd1 (rd1_table_id wrd) (rd1_flags wrd) (rd1_payload wrd)) _ _ _ accepts_write_v1);
     intros v w; split; [intros H; exists v; destruct v; auto|intros (a & -> & H); destruct a; exact H]).
Qed.
Lemma accepts_write_v2 : takes_message read_write_rows_v2 rows_v2_layout.
Proof.
  unfold read_write_rows_v2, rows_v2_layout. apply tm_true.
  apply (tm_field _ (is_le 6) _ rd2_table_id); [apply te_u48|intros x1].
  apply (tm_field _ (is_le 2) _ rd2_flags); [apply te_u16|intros x2].
  apply (tm_field _ (is_le 2) _ rd2_extra_data_len); [apply te_u16|intros x3]. to_end rd2_payload.
Qed.
Lemma accepts_rows_v2 : takes_message read_write_rows_v2 rows_v2_layout /\ takes_message read_update_rows_v2 rows_v2_layout /\ takes_message read_delete_rows_v2 rows_v2_layout.
Proof.
  split; [exact accepts_write_v2|]. split;
    (apply (tm_map (fun wrd => mk_rd2 (rd2_table_id wrd) (rd2_flags wrd) (rd2_extra_data_len wrd) (rd2_payload wrd)) _ _ _ accepts_write_v2);
     intros v w; split; [intros H; exists v; destruct v; auto|intros (a & -> & H); destruct a; exact H]).
Qed.
Lemma te_lei_opt : takes_exactly (l <- read_len_enc_int ;; match lei_to_u64 l with Some n => pret n | None => pfail EConstraint end) lenenc_any.
Proof.
  eapply te_bind with (F := fun l n w => lei_to_u64 l = Some n /\ w = []); [apply te_lei| |].
  - intros l w _. destruct (lei_to_u64 l) as [n|]; [apply te_ret; intros v w'; split; intros [X ->]; split; congruence|].
    apply te_fail; [discriminate|intros v w' [X _]; discriminate].
  - intros n w. rewrite any_lei. split; [intros (l & H & X); exists l, w, []; rewrite app_nil_r; auto|].
    intros (l & w1 & w2 & -> & H & X & ->). rewrite app_nil_r. eauto.
Qed.
Lemma accepts_raw_table_map : takes_exactly read_raw_table_map raw_table_map_layout.
Proof.
  unfold read_raw_table_map, raw_table_map_layout. cbv zeta.
  eapply te_ext; [intros bs; apply bind_assoc|].
  apply (te_field _ (behind_length byte1) _ rtm_schema_name); [apply te_prefixed, te_u8|intros schema].
  eapply te_skip; [apply (te_len 1)|apply (any_len 1)|intros _].
  eapply te_ext; [intros bs; apply bind_assoc|].
  apply (te_field _ (behind_length byte1) _ rtm_table_name); [apply te_prefixed, te_u8|intros table].
  eapply te_skip; [apply (te_len 1)|apply (any_len 1)|intros _].
  eapply te_ext; [intros bs; apply bind_assoc|].
  apply (te_field _ lenenc_any _ rtm_col_cnt); [apply te_lei_opt|intros cnt].
  apply (te_field_if _ (fun s : bytes => N.of_nat (length s) = cnt) exactly _ rtm_col_defs); [apply te_len|intuition congruence|intros defs H1].
  apply (te_ext _ (m <- (n <- (l <- read_len_enc_int ;; match lei_to_u64 l with Some n => pret n | None => pfail EConstraint end) ;; read_len n) ;;
    sum <- plift (cadd 64 cnt 7) ;; nb <- read_len (sum / 8) ;; pret (mk_rtm schema table cnt defs m nb))).
  { intros bs. rewrite <- !bind_assoc. unfold pbind, pret, pfail. destruct (read_len_enc_int bs) as [[l|? |?|] r]; reflexivity. }
  apply (te_field _ lstring _ rtm_col_meta_defs); [apply (te_prefixed _ _ te_lei_opt)|intros metas].
  unfold cadd. destruct (N.leb_spec (2 ^ 64) (cnt + 7)) as [L|L].
  { apply te_fail; [discriminate|]. intros v w [X _]. decompose [and] X. lia. }
  apply te_lift; [intros sum [= <-]|intros X; destruct (X _ eq_refl)].
  apply (te_field_if _ (fun s : bytes => N.of_nat (length s) = (cnt + 7) / 8) exactly _ rtm_null_bitmap); [apply te_len|intuition congruence|intros nb H2].
  apply te_done. intros v. destruct v; cbn. split; [intros X; decompose [and] X; subst; reflexivity|]. intros X. injection X as; subst. repeat split; assumption.
Qed.

(** ** Whole events *)
Lemma split_event (hw data : bytes) (n : nat) : (n <= length data)%nat -> hw ++ data = (hw ++ firstn n data) ++ skipn n data.
Proof. intros. rewrite <- app_assoc, firstn_skipn. reflexivity. Qed.
Lemma event_body crc (checksums : bool) : takes_exactly (header <- read_event_header ;; len <- plift (data_len header) ;; data <- read_len len ;;
    data <- (if checksums then n <- plift (csub (blen data) 4) ;; pret (fst (split_at n data)) else pret data) ;;
    match event_kind_of (h_type header) with
    | Some k => pret (Some (mk_event k header data))
    | None => pret None
    end) (event_layout crc checksums false).
Proof.
  eapply te_bind with (F := fun h o w => exists data trailer, w = data ++ trailer /\ 19 + N.of_nat (length w) = h_event_len h /\
    length trailer = (if checksums then 4%nat else 0%nat) /\
    o = match event_kind_of (h_type h) with Some k => Some (mk_event k h data) | None => None end); [apply accepts_header| |].
  2:{ intros o w. unfold event_layout. split.
      - intros (h & hw & data & trailer & -> & H & L & T & _ & ->). exists h, hw, (data ++ trailer). split; [reflexivity|]. split; [exact H|].
        exists data, trailer. apply header_len in H. rewrite app_length in L. repeat split; [lia|exact T].
      - intros (h & hw & w2 & -> & H & data & trailer & -> & L & T & ->). exists h, hw, data, trailer. split; [reflexivity|].
        split; [exact H|]. apply header_len in H. repeat split; [rewrite app_length; lia|exact T|]. rewrite andb_false_r. discriminate. }
  intros h w0 _. unfold data_len, csub. destruct (N.ltb_spec (h_event_len h) 19) as [L|L].
  { apply te_fail; [discriminate|]. intros o w (data & trailer & _ & X & _). lia. }
  apply te_lift; [intros len [= <-]|intros X; destruct (X _ eq_refl)].
  eapply te_bind with (F := fun s o w => w = [] /\ exists data trailer, s = data ++ trailer /\
    length trailer = (if checksums then 4%nat else 0%nat) /\
    o = match event_kind_of (h_type h) with Some k => Some (mk_event k h data) | None => None end); [apply te_len| |].
  2:{ intros o w. unfold exactly. split.
      - intros (data & trailer & -> & X & T & ->). exists (data ++ trailer), (data ++ trailer), []. rewrite app_nil_r. repeat split; [lia|eauto].
      - intros (s & w1 & w2 & -> & [X ->] & -> & data & trailer & -> & T & ->). rewrite app_nil_r. exists data, trailer. repeat split; [lia|exact T]. }
  intros s w1 _. set (result := fun data => match event_kind_of (h_type h) with Some k => Some (mk_event k h data) | None => None end).
  assert (R : forall data bs, match event_kind_of (h_type h) with Some k => pret (Some (mk_event k h data)) | None => pret None end bs = (Ok (result data), bs)).
  { intros data bs. unfold result. destruct (event_kind_of (h_type h)); reflexivity. }
  intros bs o rest. destruct checksums.
  - unfold pbind, plift. unfold csub. destruct (N.ltb_spec (blen s) 4) as [L'|L'].
    { split; [discriminate|]. intros (w & _ & _ & data & trailer & -> & T & _). unfold blen in L'. rewrite app_length in L'. lia. }
    unfold pret at 1, split_at. cbn [fst]. rewrite R. unfold blen in *. split.
    + intros [= <- <-]. exists []. split; [reflexivity|]. split; [reflexivity|].
      exists (firstn (N.to_nat (N.of_nat (length s) - 4)) s), (skipn (N.to_nat (N.of_nat (length s) - 4)) s).
      rewrite firstn_skipn, skipn_length. repeat split. lia.
    + intros (w & -> & -> & data & trailer & -> & T & ->). rewrite app_length, T.
      replace (N.to_nat (N.of_nat (length data + 4) - 4)) with (length data) by lia.
      rewrite firstn_app, firstn_all, Nat.sub_diag, firstn_O, app_nil_r. reflexivity.
  - unfold pbind, pret at 1. rewrite R. split.
    + intros [= <- <-]. exists []. split; [reflexivity|]. split; [reflexivity|]. exists s, []. rewrite app_nil_r. repeat split.
    + intros (w & -> & -> & data & trailer & -> & T & ->). destruct trailer; [|discriminate]. rewrite app_nil_r. reflexivity.
Qed.
Lemma read_len_peek n bs s : fst (read_len n bs) = Ok s <-> exists more, bs = s ++ more /\ N.of_nat (length s) = n.
Proof.
  destruct (read_len n bs) as [r rest] eqn:E. cbn [fst]. split.
  - intros ->. apply te_len in E. destruct E as (w & -> & L & ->). eauto.
  - intros (more & -> & L). assert (X : read_len n (s ++ more) = (Ok s, more)) by (apply te_len; exists s; repeat split; exact L). congruence.
Qed.
(** the check: header [h] at the front of [w], the first bytes of the input *)
Lemma checked crc h hw w more : header_layout h hw -> (exists x, w = hw ++ x) -> N.of_nat (length w) = h_event_len h ->
  (fst (check_checksum crc (w ++ more)) = Ok tt <-> exists front t, w = front ++ t /\ length t = 4%nat /\ le_val t = crc front) /\
  snd (check_checksum crc (w ++ more)) = w ++ more.
Proof.
  intros H (x & Ex) L. unfold check_checksum, pbind, ppeek.
  assert (F : read_event_header (w ++ more) = (Ok h, x ++ more)) by (apply accepts_header; exists hw; split; [rewrite Ex, <- app_assoc; reflexivity|exact H]).
  rewrite F. cbn [fst]. rewrite (proj2 (read_len_peek (h_event_len h) (w ++ more) w)) by eauto.
  apply header_len in H. assert (19 <= length w)%nat by (rewrite Ex, app_length; lia).
  unfold plift, csub, blen. destruct (N.ltb_spec (N.of_nat (length w)) 4) as [Lw|Lw]; [lia|]. unfold split_at.
  set (k := N.to_nat (N.of_nat (length w) - 4)).
  assert (Lt : length (skipn k w) = 4%nat) by (rewrite skipn_length; unfold k; lia).
  assert (U : fst (read_le_u32 (skipn k w)) = Ok (le_val (skipn k w))).
  { rewrite (proj2 (te_u32 (skipn k w) (le_val (skipn k w)) [])); [reflexivity|]. exists (skipn k w). rewrite app_nil_r. repeat split. exact Lt. }
  rewrite U. destruct (N.eqb_spec (le_val (skipn k w)) (crc (firstn k w))) as [e|e].
  - split; [|reflexivity]. split; [|reflexivity]. intros _. exists (firstn k w), (skipn k w). rewrite firstn_skipn. auto.
  - split; [|reflexivity]. split; [discriminate|]. intros (front & t & E & T & X). exfalso. apply e.
    assert (K : k = length front) by (unfold k; rewrite E, app_length; lia). rewrite K, E.
    rewrite firstn_app, skipn_app, firstn_all, skipn_all, Nat.sub_diag, firstn_O, app_nil_r. cbn [skipn app]. exact X.
Qed.
Lemma check_keeps crc bs : exists r, check_checksum crc bs = (r, bs).
Proof.
  unfold check_checksum, pbind, ppeek, plift. destruct (fst (read_event_header bs)) as [h|? |?|]; try (eexists; reflexivity).
  destruct (fst (read_len (h_event_len h) bs)) as [s|? |?|]; try (eexists; reflexivity).
  destruct (csub (blen s) 4) as [n|? |?|]; try (eexists; reflexivity). destruct (split_at n s) as [a b].
  destruct (fst (read_le_u32 b)) as [e|? |?|]; try (eexists; reflexivity). destruct (e =? crc a); eexists; reflexivity.
Qed.
Lemma accepts_event crc self validate : takes_exactly (parse_event crc self validate) (event_layout crc (p_checksum self) validate).
Proof.
  unfold parse_event. destruct (p_checksum self && validate) eqn:B.
  2:{ eapply te_iff; [|apply (event_body crc (p_checksum self))]. intros o w. unfold event_layout. rewrite andb_false_r, B. reflexivity. }
  apply andb_true_iff in B. destruct B as [Bc Bv]. subst validate. rewrite Bc.
  intros bs o rest. destruct (check_keeps crc bs) as (r & E). unfold pbind at 1. rewrite E.
  pose proof (event_body crc true bs o rest) as P.
  assert (K : forall w, bs = w ++ rest -> event_layout crc true false o w -> (r = Ok tt <-> event_layout crc true true o w)).
  { intros w -> (h & hw & data & trailer & Ew & H & L & T & _ & Eo).
    destruct (checked crc h hw w rest H (ex_intro _ _ Ew) L) as [C _]. rewrite E in C. cbn [fst] in C. rewrite C. split.
    - intros (front & t & X & Lt & Y). rewrite app_assoc in Ew. rewrite X in Ew.
      assert (Lf : length front = length (hw ++ data)) by (apply (f_equal (@length byte)) in Ew; rewrite !app_length in *; cbn in T; lia).
      apply app_eq_app_len in Ew; [|exact Lf]. destruct Ew as [-> ->].
      exists h, hw, data, trailer. rewrite X, <- app_assoc. repeat split; try assumption; [rewrite <- L, X, <- app_assoc; reflexivity|].
      intros _. exact Y.
    - intros (h' & hw' & data' & trailer' & Ew' & H' & L' & T' & Y & _). exists (hw' ++ data'), trailer'. split; [rewrite Ew', app_assoc; reflexivity|].
      split; [exact T'|apply Y; reflexivity]. }
  assert (W : forall w, event_layout crc true true o w -> event_layout crc true false o w).
  { intros w (h & hw & data & trailer & H). exists h, hw, data, trailer. decompose [and] H. repeat split; try assumption. discriminate. }
  split.
  - destruct r as [[]|? |?|]; try discriminate. intros X. apply P in X. destruct X as (w & Eb & X). exists w. split; [exact Eb|].
    apply (K w Eb X). reflexivity.
  - intros (w & Eb & X). rewrite (proj2 (K w Eb (W w X)) X). apply P. exists w. auto.
Qed.
Lemma accepts_skip self : takes_exactly (skip_event self) (fun _ w => skipped_layout w).
Proof.
  unfold skip_event. eapply te_bind with (F := fun h _ w => 19 + N.of_nat (length w) = h_event_len h); [apply accepts_header| |].
  - intros h w0 _. unfold data_len, csub. destruct (N.ltb_spec (h_event_len h) 19) as [L|L].
    { apply te_fail; [discriminate|]. intros o w X. lia. }
    apply te_lift; [intros len [= <-]|intros X; destruct (X _ eq_refl)].
    eapply te_bind with (F := fun s _ w => w = []); [apply te_len|intros s w _; apply te_ret; intros [] w'; tauto|].
    intros v w. unfold exactly. split; [intros X; exists w, w, []; rewrite app_nil_r; repeat split; lia|].
    intros (s & w1 & w2 & -> & [X ->] & ->). rewrite app_nil_r. lia.
  - intros v w. unfold skipped_layout. split.
    + intros (h & hw & data & -> & H & L). exists h, hw, data. repeat split; [exact H|]. apply header_len in H. rewrite app_length in L. lia.
    + intros (h & hw & data & -> & H & L). exists h, hw, data. repeat split; [exact H|]. apply header_len in H. rewrite app_length. lia.
Qed.
