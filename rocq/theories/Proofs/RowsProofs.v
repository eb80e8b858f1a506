From Coq Require Import Lia.
From Verif Require Import Model.Base Model.BytesParser Model.LenEnc Model.Cmd Model.Utf8 Model.Bitmap Model.Col Model.Row
  Model.EventBody Model.Rows Spec.Nums Spec.Wire Spec.BitmapSpec Spec.EventBodies Spec.BinlogValues
  Proofs.BaseLemmas Proofs.BytesParserProofs Proofs.WireLemmas Proofs.LenEncProofs Proofs.BitmapProofs Proofs.EventBodyProofs Proofs.BinlogValueProofs.
Open Scope N_scope.

(** ** table maps *)
Lemma table_map_data_read table_id flags payload : table_id < 2 ^ 48 -> flags < 2 ^ 16 ->
  read_table_map_data (wle 6 table_id ++ wle 2 flags ++ payload) = (Ok (mk_tmd table_id flags payload), []).
Proof. intros. unfold read_table_map_data. rsteps. reflexivity. Qed.
Lemma rd_lei64 n rest : n < 2 ^ 64 ->
  (x <- read_len_enc_int ;; match lei_to_u64 x with Some m => pret m | None => pfail EConstraint end) (wlenenc n ++ rest) = (Ok n, rest).
Proof.
  intros H. destruct (read_lei_lenenc n (wlenenc n) rest (wlenenc_spec n H)) as (l & Hl & Hv).
  erewrite pbind_ok by exact Hl. rewrite Hv. reflexivity.
Qed.
Lemma raw_table_map_read schema table tys nulls rest : short schema -> short table ->
  N.of_nat (length tys) < 2 ^ 32 -> N.of_nat (length (concat (map type_meta tys))) < 2 ^ 64 ->
  length nulls = ((length tys + 7) / 8)%nat ->
  read_raw_table_map (table_map_bytes schema table tys nulls ++ rest)
  = (Ok (mk_rtm schema table (N.of_nat (length tys)) (map type_code tys) (concat (map type_meta tys)) nulls), rest).
Proof.
  intros Hs Ht Hn Hm Hl. unfold table_map_bytes, wstr1. cbv zeta. rewrite <- !app_assoc. unfold read_raw_table_map.
  eapply eq_trans; [eapply pbind_ok; apply rd_u8; exact Hs|]. cbv beta.
  eapply eq_trans; [eapply pbind_ok; apply rd_len; reflexivity|]. cbv beta.
  eapply eq_trans; [eapply pbind_ok; apply (rd_len _ [x00]); reflexivity|]. cbv beta.
  eapply eq_trans; [eapply pbind_ok; apply rd_u8; exact Ht|]. cbv beta.
  eapply eq_trans; [eapply pbind_ok; apply rd_len; reflexivity|]. cbv beta.
  eapply eq_trans; [eapply pbind_ok; apply (rd_len _ [x00]); reflexivity|]. cbv beta.
  destruct (read_lei_lenenc _ _ (map type_code tys ++ wlenenc (N.of_nat (length (concat (map type_meta tys)))) ++ concat (map type_meta tys) ++ nulls ++ rest)
    (wlenenc_spec (N.of_nat (length tys)) ltac:(eapply N.lt_trans; [exact Hn|reflexivity]))) as (l & El & Ev).
  eapply eq_trans; [eapply pbind_ok; exact El|]. cbv beta. rewrite Ev.
  eapply eq_trans; [eapply pbind_ok; reflexivity|]. cbv beta.
  eapply eq_trans; [eapply pbind_ok; apply rd_len; unfold blen; rewrite map_length; reflexivity|]. cbv beta.
  destruct (read_lei_lenenc _ _ (concat (map type_meta tys) ++ nulls ++ rest) (wlenenc_spec _ Hm)) as (l' & El' & Ev').
  eapply eq_trans; [eapply pbind_ok; exact El'|]. cbv beta. rewrite Ev'.
  eapply eq_trans; [eapply pbind_ok; reflexivity|]. cbv beta.
  eapply eq_trans; [eapply pbind_ok; apply rd_len; reflexivity|]. cbv beta.
  change (2 ^ 32) with 4294967296 in Hn.
  lift ltac:(unfold cadd; destruct (N.leb_spec (2 ^ 64) (N.of_nat (length tys) + 7)) as [L|L];
    [exfalso; change (2 ^ 64) with 18446744073709551616 in L; lia|reflexivity]).
  eapply eq_trans; [eapply pbind_ok; apply rd_len; unfold blen; rewrite Hl; lia|]. reflexivity.
Qed.
Lemma table_map_decodes table_id flags schema table tys ms nulls : short schema -> short table ->
  utf8_valid schema = true -> utf8_valid table = true ->
  N.of_nat (length tys) < 2 ^ 32 -> N.of_nat (length (concat (map type_meta tys))) < 2 ^ 64 ->
  length nulls = ((length tys + 7) / 8)%nat -> Forall sql_type_ok tys -> map type_desc tys = map Some ms ->
  table_map_of (mk_tmd table_id flags (table_map_bytes schema table tys nulls)) = Ok (mk_table_map schema table ms nulls).
Proof.
  intros Hs Ht Us Ut Hn Hm Hl Hk Hd. unfold table_map_of. cbn [tmd_payload].
  rewrite <- (app_nil_r (table_map_bytes _ _ _ _)), raw_table_map_read by assumption. cbn [fst rbind].
  unfold table_map_of_raw. cbn [rtm_schema_name rtm_table_name rtm_col_cnt rtm_col_defs rtm_col_meta_defs rtm_null_bitmap].
  unfold from_utf8. rewrite Us, Ut. cbn [rbind].
  rewrite <- (app_nil_r (concat _)), (metas_read tys ms []) by assumption. reflexivity.
Qed.

(** SET and JSON columns: the whole table map is lost *)
Lemma metas_loop_stop pre ty post ms suf (r : res column_meta) :
  Forall sql_type_ok pre -> map type_desc pre = map Some ms ->
  (rbind (column_type_of (b2n (type_code ty))) (fun ct => fst (read_column_meta ct (type_meta ty ++ concat (map type_meta post) ++ suf)))) = r ->
  (forall m, r <> Ok m) ->
  fst (read_column_metas_loop (length (pre ++ ty :: post)) 0 (map type_code (pre ++ ty :: post)) (concat (map type_meta (pre ++ ty :: post)) ++ suf))
  = rbind r (fun _ => Ok []).
Proof.
  intros Hk Hd Hr Hn.
  assert (G : forall k0, (k0 <= length pre)%nat -> forall ms', map type_desc (skipn (length pre - k0) pre) = map Some ms' ->
     fst (read_column_metas_loop (k0 + S (length post)) (length pre - k0) (map type_code (pre ++ ty :: post))
           (concat (map type_meta (skipn (length pre - k0) pre ++ ty :: post)) ++ suf)) = rbind r (fun _ => Ok [])).
  { induction k0; intros Hle ms' Hms.
    - rewrite Nat.sub_0_r, skipn_all2 by lia. cbn [app Nat.add read_column_metas_loop map concat].
      erewrite pbind_ok; [|apply rd_lift; rewrite map_app; cbn [map]; rewrite <- (map_length type_code pre); apply bget_app]. cbv beta.
      rewrite <- app_assoc. destruct (column_type_of (b2n (type_code ty))) as [ct| | |]; cbn [rbind] in Hr.
      + erewrite pbind_ok; [|apply rd_lift; reflexivity]. cbv beta. unfold pbind at 1. match goal with |- fst (let (_, _) := ?x in _) = _ => destruct x as [rr r'] eqn:Q end.
        cbn [fst] in Hr. subst rr. destruct r as [m| | |]; try reflexivity.
        exfalso. eapply Hn. reflexivity.
      + subst r. reflexivity.
      + subst r. reflexivity.
      + subst r. reflexivity.
    - assert (exists t0, nth_error pre (length pre - S k0) = Some t0) as [t0 Et].
      { destruct (nth_error pre (length pre - S k0)) eqn:E; [eauto|]. apply nth_error_None in E. lia. }
      assert (Es : skipn (length pre - S k0) pre = t0 :: skipn (length pre - k0) pre).
      { replace (length pre - k0)%nat with (S (length pre - S k0)) by lia. clear - Et. revert Et. generalize (length pre - S k0)%nat.
        induction pre; intros [|n] E; try discriminate; cbn in *; [congruence|apply IHpre; assumption]. }
      rewrite Es in Hms |- *. destruct ms' as [|m ms']; [discriminate|]. cbn [map] in Hms. injection Hms as D1 D2.
      cbn [Nat.add read_column_metas_loop app map concat].
      erewrite pbind_ok; [|apply rd_lift; unfold bget; rewrite nth_error_map, nth_error_app1 by lia; rewrite Et; reflexivity]. cbv beta.
      assert (Ht0 : sql_type_ok t0) by (eapply Forall_forall; [exact Hk|eapply nth_error_In; exact Et]).
      destruct (meta_decodes t0 m (concat (map type_meta (skipn (length pre - k0) pre ++ ty :: post)) ++ suf) Ht0 D1) as (ct & E1 & E2).
      erewrite pbind_ok; [|apply rd_lift; exact E1]. cbv beta. rewrite <- app_assoc. erewrite pbind_ok; [|exact E2]. cbv beta.
      specialize (IHk0 ltac:(lia) ms' D2). replace (length pre - k0)%nat with (S (length pre - S k0)) in * by lia.
      unfold pbind at 1. match goal with |- fst (let (_, _) := ?x in _) = _ => destruct x as [rr r'] eqn:Q end.
      cbn [fst] in IHk0. subst rr.
      destruct r as [m0| | |]; try reflexivity. exfalso. eapply Hn. reflexivity. }
  specialize (G (length pre) (le_n _)). rewrite Nat.sub_diag in G. cbn [skipn] in G. rewrite app_length. cbn [length]. apply (G ms Hd).
Qed.

Lemma table_map_stop table_id flags schema table pre ty post ms nulls (r : res column_meta) : short schema -> short table ->
  utf8_valid schema = true -> utf8_valid table = true ->
  N.of_nat (length (pre ++ ty :: post)) < 2 ^ 32 -> N.of_nat (length (concat (map type_meta (pre ++ ty :: post)))) < 2 ^ 64 ->
  length nulls = ((length (pre ++ ty :: post) + 7) / 8)%nat -> Forall sql_type_ok pre -> map type_desc pre = map Some ms ->
  (forall rest, rbind (column_type_of (b2n (type_code ty))) (fun ct => fst (read_column_meta ct (type_meta ty ++ rest))) = r) -> (forall m, r <> Ok m) ->
  table_map_of (mk_tmd table_id flags (table_map_bytes schema table (pre ++ ty :: post) nulls)) = rbind r (fun _ => Ok (mk_table_map [] [] [] [])).
Proof.
  intros Hs Ht Us Ut Hn Hm Hl Hk Hd Hr Hno. unfold table_map_of. cbn [tmd_payload].
  rewrite <- (app_nil_r (table_map_bytes _ _ _ _)), raw_table_map_read by assumption. cbn [fst rbind].
  unfold table_map_of_raw. cbn [rtm_schema_name rtm_table_name rtm_col_cnt rtm_col_defs rtm_col_meta_defs rtm_null_bitmap].
  unfold from_utf8. rewrite Us, Ut. cbn [rbind]. unfold read_column_metas.
  erewrite pbind_ok; [|apply rd_lift; unfold with_capacity;
    destruct (N.leb_spec (2 ^ 63) (4 * N.of_nat (length (pre ++ ty :: post)))) as [Q|Q]; [exfalso|reflexivity];
    change (2 ^ 32) with 4294967296 in Hn; change (2 ^ 63) with 9223372036854775808 in Q; lia].
  rewrite Nat2N.id. pose proof (metas_loop_stop pre ty post ms [] r Hk Hd (Hr _) Hno) as G.
  rewrite app_nil_r in G. rewrite G. destruct r as [m| | |]; try reflexivity. exfalso. apply (Hno m). reflexivity.
Qed.
Lemma set_stop pack rest : rbind (column_type_of (b2n (type_code (SSet pack)))) (fun ct => fst (read_column_meta ct (type_meta (SSet pack) ++ rest))) = Panic PUnimplemented.
Proof. reflexivity. Qed.
Lemma json_stop rest : rbind (column_type_of (b2n (type_code SJson))) (fun ct => fst (read_column_meta ct (type_meta SJson ++ rest))) = Err EConstraint.
Proof. reflexivity. Qed.

(** ** row images *)
Lemma bitmap_bits l bs : bitmap_of l bs -> firstn (length l) (map (bit bs) (seq 0 (8 * length bs))) = l.
Proof.
  intros [L B]. replace (8 * length bs)%nat with (length l + (8 * length bs - length l))%nat by lia.
  rewrite seq_app, map_app, firstn_app, map_length, seq_length, Nat.sub_diag. cbn [firstn]. rewrite app_nil_r.
  rewrite firstn_all2 by (rewrite map_length, seq_length; lia).
  transitivity (map (fun i => nth i l false) (seq 0 (length l))).
  - apply map_ext_in. intros i Hi. apply in_seq in Hi. apply B. lia.
  - rewrite map_nth_seq by lia. rewrite Nat.sub_diag. apply app_nil_r.
Qed.
Lemma count_present_spec present pb : bitmap_of present pb ->
  count_present (N.of_nat (length present)) pb = Ok (length (filter (fun b => b) present)).
Proof.
  intros H. unfold count_present. rewrite bm_to_iter_spec by lia. cbn [rmap rbind]. unfold bits_from.
  rewrite Nat.sub_0_r, Nat2N.id, bitmap_bits by exact H. reflexivity.
Qed.
Lemma next_set_ok p : forall fuel bm j, (j <= p < 8 * length bm)%nat -> (forall k, (j <= k < p)%nat -> bit bm k = false) -> bit bm p = true ->
  (p - j <= fuel)%nat -> next_set fuel bm j = Ok p.
Proof.
  induction fuel; intros bm j Hj Hf Ht Hfu.
  - assert (j = p) by lia. subst j. cbn [next_set]. rewrite bm_index_spec by lia. cbn [rbind]. rewrite Ht. reflexivity.
  - destruct (Nat.eq_dec j p) as [->|].
    + cbn [next_set]. rewrite bm_index_spec by lia. cbn [rbind]. rewrite Ht. reflexivity.
    + cbn [next_set]. rewrite bm_index_spec by lia. cbn [rbind]. rewrite Hf by lia. apply IHfuel; auto; try lia. intros; apply Hf; lia.
Qed.
Definition is_val (c : cell) : bool := match c with CVal _ _ => true | _ => false end.
Lemma first_present row : filter is_present row <> [] ->
  exists a, (a < length row)%nat /\ is_present (nth a row CAbsent) = true /\ forall k, (k < a)%nat -> is_present (nth k row CAbsent) = false.
Proof.
  induction row as [|c row IH]; intros H; [contradiction|]. destruct (is_present c) eqn:E.
  - exists 0%nat. cbn. splits; auto; intros; lia.
  - cbn [filter] in H. rewrite E in H. destruct (IH H) as (a & A1 & A2 & A3). exists (S a). cbn [nth length]. splits; auto; try lia.
    intros [|k] Hk; [exact E|]. apply A3. lia.
Qed.
Lemma mark_nulls_spec row : forall i j nb cb,
  (forall k, (k < length row)%nat -> bit cb (j + k) = is_present (nth k row CAbsent)) -> (j + length row <= 8 * length cb)%nat ->
  (forall k, (k < length (filter is_present row))%nat -> bit nb (i + k) = nth k (map is_null (filter is_present row)) false) ->
  (i + length (filter is_present row) <= 8 * length nb)%nat ->
  exists cb', mark_nulls (length (filter is_present row)) i j nb cb = Ok cb' /\ length cb' = length cb /\
    (forall k, (k < length row)%nat -> bit cb' (j + k) = is_val (nth k row CAbsent)) /\
    (forall k, (k < j)%nat -> bit cb' k = bit cb k).
Proof.
  induction row as [|c row IH]; intros i j nb cb Hc Lc Hn Ln.
  - exists cb. cbn. splits; auto; intros; lia.
  - destruct (is_present c) eqn:E; cbn [filter] in *; rewrite E in *; cbn [length map] in *.
    + cbn [mark_nulls]. rewrite (next_set_ok j); try lia.
      2:{ specialize (Hc 0%nat ltac:(lia)). rewrite Nat.add_0_r in Hc. cbn in Hc. congruence. }
      cbn [rbind]. rewrite bm_index_spec by lia. cbn [rbind].
      specialize (Hn 0%nat ltac:(lia)) as Hn0. rewrite Nat.add_0_r in Hn0. cbn [nth] in Hn0. rewrite Hn0.
      destruct (bm_mark_spec cb j (negb (is_null c)) ltac:(lia)) as (cb1 & E1 & E2 & E3 & E4). rewrite E1. cbn [rbind].
      destruct (IH (S i) (S j) nb cb1) as (cb2 & G1 & G2 & G3 & G4).
      * intros k Hk. rewrite E4 by lia. rewrite Nat.add_succ_comm. rewrite (Hc (S k)) by lia. reflexivity.
      * lia.
      * intros k Hk. rewrite Nat.add_succ_comm. rewrite (Hn (S k)) by lia. reflexivity.
      * lia.
      * exists cb2. splits; [exact G1|congruence| |].
        -- intros [|k] Hk.
           ++ rewrite Nat.add_0_r, G4 by lia. rewrite E3. cbn [nth]. destruct c; try reflexivity; discriminate.
           ++ rewrite <- Nat.add_succ_comm. rewrite G3 by lia. reflexivity.
        -- intros k Hk. rewrite G4 by lia. apply E4. lia.
    + assert (Hc' : forall k, (k < length row)%nat -> bit cb (S j + k) = is_present (nth k row CAbsent)).
      { intros k Hk. rewrite Nat.add_succ_comm. rewrite (Hc (S k)) by lia. reflexivity. }
      destruct (IH i (S j) nb cb Hc' ltac:(lia) Hn Ln) as (cb2 & G1 & G2 & G3 & G4).
      exists cb2. splits; auto.
      * rewrite <- G1. destruct (filter is_present row) as [|p0 pr] eqn:Ef; [reflexivity|].
        destruct (first_present row) as (a & A1 & A2 & A3); [rewrite Ef; discriminate|].
        cbn [length mark_nulls].
        assert (B0 : bit cb j = false). { specialize (Hc 0%nat ltac:(lia)). rewrite Nat.add_0_r in Hc. cbn in Hc. congruence. }
        rewrite (next_set_ok (S j + a)); try lia.
        2:{ intros k Hk. destruct (Nat.eq_dec k j) as [->|]; [exact B0|]. replace k with (S j + (k - S j))%nat by lia. rewrite Hc' by lia. apply A3. lia. }
        2:{ rewrite Hc' by lia. exact A2. }
        rewrite (next_set_ok (S j + a)); try lia; [reflexivity| |].
        { intros k Hk. replace k with (S j + (k - S j))%nat by lia. rewrite Hc' by lia. apply A3. lia. }
        { rewrite Hc' by lia. exact A2. }
      * intros [|k] Hk.
        -- rewrite Nat.add_0_r, G4 by lia. cbn [nth]. specialize (Hc 0%nat ltac:(lia)). rewrite Nat.add_0_r in Hc. rewrite Hc. cbn [nth].
           destruct c; try reflexivity; discriminate.
        -- rewrite <- Nat.add_succ_comm. rewrite G3 by lia. reflexivity.
Qed.
Lemma log_cols_read tys : forall row (pre ms : list column_meta) cb rest, Forall2 cell_ok tys row -> map type_desc tys = map Some ms ->
  (length pre + length row <= 8 * length cb)%nat ->
  (forall k, (k < length row)%nat -> bit cb (length pre + k) = is_val (nth k row CAbsent)) ->
  read_log_cols (length row) (length pre) cb (pre ++ ms) (concat (map cell_bytes row) ++ rest) = (Ok (map cell_value row), rest).
Proof.
  induction tys as [|ty tys IH]; intros row pre ms cb rest H D L B.
  - inversion H; subst. reflexivity.
  - inversion H as [|? c ? row' Hc Hr]; subst. destruct ms as [|m ms]; [discriminate|]. cbn [map] in D. injection D as D1 D2.
    cbn [length] in *. cbn [read_log_cols map concat].
    lift ltac:(apply bm_index_spec; lia). pose proof (B 0%nat ltac:(lia)) as B0. rewrite Nat.add_0_r in B0. rewrite B0. cbn [nth].
    specialize (IH row' (pre ++ [m]) ms cb rest Hr D2). rewrite app_length in IH. cbn [length] in IH. rewrite <- app_assoc in IH. cbn [app] in IH.
    rewrite Nat.add_1_r in IH.
    assert (IH' : read_log_cols (length row') (S (length pre)) cb (pre ++ m :: ms) (concat (map cell_bytes row') ++ rest) = (Ok (map cell_value row'), rest)).
    { apply IH; [lia|]. intros k Hk. rewrite Nat.add_succ_comm. rewrite (B (S k)) by lia. reflexivity. }
    rewrite <- app_assoc. eapply eq_trans.
    { eapply pbind_ok. instantiate (1 := concat (map cell_bytes row') ++ rest). instantiate (1 := cell_value c).
      destruct c as [| |v bs]; cbn [is_val cell_bytes cell_value app]; [reflexivity|reflexivity|].
      rewrite nth_error_app2, Nat.sub_diag by lia. cbn [nth_error]. destruct Hc as [Hc1 Hc2]. eapply value_decodes; eassumption. }
    cbv beta. eapply eq_trans; [eapply pbind_ok; exact IH'|]. reflexivity.
Qed.
Lemma Forall2_len {A B} (R : A -> B -> Prop) l l' : Forall2 R l l' -> length l = length l'.
Proof. induction 1; cbn; auto. Qed.
Lemma filter_map_present row : length (filter (fun b => b) (map is_present row)) = length (filter is_present row).
Proof. induction row as [|c row IH]; [reflexivity|]. cbn. destruct (is_present c); cbn; auto. Qed.
Lemma row_image_read tys ms present pb row bs rest : map type_desc tys = map Some ms -> bitmap_of present pb -> length present = length tys ->
  N.of_nat (length tys) < 2 ^ 32 - 7 -> row_image tys present row bs ->
  read_row_image (N.of_nat (length tys)) pb (length (filter (fun b => b) present)) ms (bs ++ rest) = (Ok (map cell_value row), rest).
Proof.
  intros D [Lb Bb] Lp Hn (Hr & Hp & nulls & [Ln Bn] & ->). pose proof (Forall2_len _ _ _ Hr) as Lr.
  subst present. rewrite filter_map_present. rewrite map_length in *. unfold read_row_image. rewrite <- app_assoc.
  eapply eq_trans; [eapply pbind_ok; apply rd_len; unfold blen; rewrite Ln, N.shiftr_div_pow2; change (2 ^ 3) with 8; lia|]. cbv beta.
  destruct (mark_nulls_spec row 0 0 nulls pb) as (cb & E1 & E2 & E3 & _).
  - intros k Hk. cbn [Nat.add]. rewrite Bb by lia. change false with (is_present CAbsent). apply map_nth.
  - lia.
  - intros k Hk. cbn [Nat.add]. apply Bn. exact Hk.
  - lia.
  - lift ltac:(exact E1). unfold read_log_row. eapply eq_trans.
    { eapply pbind_ok. apply rd_lift. unfold with_capacity. destruct (N.leb_spec (2 ^ 63) (40 * N.of_nat (length tys))) as [Q|Q]; [exfalso|reflexivity].
      change (2 ^ 32 - 7) with 4294967289 in Hn. change (2 ^ 63) with 9223372036854775808 in Q. lia. }
    rewrite Nat2N.id, Lr. apply (log_cols_read tys row [] ms cb rest); auto; cbn; lia.
Qed.
Lemma row_image_nonempty tys present row bs : In true present -> row_image tys present row bs -> (0 < length bs)%nat.
Proof.
  intros Hi (Hr & Hp & nulls & [Ln Bn] & ->). rewrite app_length. rewrite map_length in Ln.
  assert (0 < length (filter is_present row))%nat; [|lia].
  subst present. apply in_map_iff in Hi. destruct Hi as (c & E & Hc).
  destruct (filter is_present row) eqn:F; [|cbn; lia]. exfalso.
  assert (In c (filter is_present row)) as Q by (apply filter_In; auto). rewrite F in Q. contradiction.
Qed.
Lemma pwhile_rel {A B} (p : parser A) (R : B -> bytes -> Prop) (val : B -> A) :
  (forall b bs rest, R b bs -> p (bs ++ rest) = (Ok (val b), rest)) -> (forall b bs, R b bs -> (0 < length bs)%nat) ->
  forall l bss fuel, Forall2 R l bss -> (length (concat bss) <= fuel)%nat -> pwhile fuel p (concat bss) = (Ok (map val l), []).
Proof.
  intros Hp He l bss fuel H. revert fuel. induction H as [|b bs l bss Hb _ IH]; intros fuel Hf.
  - destruct fuel; reflexivity.
  - cbn [map concat] in *. rewrite app_length in Hf. pose proof (He b bs Hb).
    destruct fuel as [|fuel]; [lia|]. cbn [pwhile]. destruct (bs ++ concat bss) eqn:E.
    { apply (f_equal (@length _)) in E. rewrite app_length in E. cbn in E. lia. }
    rewrite <- E. erewrite pbind_ok; [|exact (Hp b bs _ Hb)]. cbv beta. erewrite pbind_ok; [|apply IH; lia]. reflexivity.
Qed.
Lemma n_cols_read n rest : n < 2 ^ 32 - 7 -> read_n_cols (wlenenc n ++ rest) = (Ok (n, (n + 7) / 8), rest).
Proof.
  intros H. change (2 ^ 32 - 7) with 4294967289 in H. unfold read_n_cols.
  assert (H64 : n < 2 ^ 64) by (eapply N.lt_trans; [exact H|reflexivity]).
  destruct (read_lei_lenenc n (wlenenc n) rest (wlenenc_spec n H64)) as (l & Hl & Hv).
  eapply eq_trans; [eapply pbind_ok; exact Hl|]. cbv beta.
  assert (E : lei_to_u32 l = Some n).
  { destruct l; cbn in *; try discriminate; injection Hv as ->; try reflexivity.
    unfold trunc. f_equal. apply N.mod_small. eapply N.lt_trans; [exact H|reflexivity]. }
  rewrite E. eapply eq_trans; [eapply pbind_ok; reflexivity|]. cbv beta.
  lift ltac:(unfold cadd; destruct (N.leb_spec (2 ^ 32) (n + 7)) as [L|L]; [exfalso; change (2 ^ 32) with 4294967296 in L; lia|reflexivity]).
  rewrite N.shiftr_div_pow2. reflexivity.
Qed.
Lemma rows_decode tys ms present pb rows images table_id flags extra : map type_desc tys = map Some ms -> bitmap_of present pb -> length present = length tys ->
  N.of_nat (length tys) < 2 ^ 32 - 7 -> (In true present \/ images = []) -> Forall2 (row_image tys present) rows images ->
  rows_of (mk_rd2 table_id flags (N.of_nat (length extra) + 2) (rows_head extra tys ++ pb ++ concat images)) ms
  = Ok (mk_rows extra (N.of_nat (length tys)) pb (map (map cell_value) rows)).
Proof.
  intros D Hb Lp Hn Hi Hr. unfold rows_of. cbn [rd2_extra_data_len rd2_payload].
  assert (E : read_rows_v2 (N.of_nat (length extra) + 2) ms (rows_head extra tys ++ pb ++ concat images)
    = (Ok (mk_rows extra (N.of_nat (length tys)) pb (map (map cell_value) rows)), [])); [|rewrite E; reflexivity].
  unfold read_rows_v2, rows_head. rewrite <- app_assoc.
  lift ltac:(unfold csub; destruct (N.ltb_spec (N.of_nat (length extra) + 2) 2); [lia|reflexivity]).
  eapply eq_trans; [eapply pbind_ok; apply rd_len; unfold blen; lia|]. cbv beta.
  eapply eq_trans; [eapply pbind_ok; apply n_cols_read; exact Hn|]. cbv beta iota.
  pose proof Hb as [Lb _].
  eapply eq_trans; [eapply pbind_ok; apply rd_len; unfold blen; rewrite Lb, Lp; lia|]. cbv beta.
  lift ltac:(rewrite <- Lp; apply count_present_spec; exact Hb).
  eapply eq_trans; [eapply pbind_ok|].
  { unfold while_remaining. destruct Hi as [Hi | ->].
    - apply (pwhile_rel _ (row_image tys present) (map cell_value)) with (l := rows); auto.
      + intros b bs rest HR. apply row_image_read; assumption.
      + intros b bs. apply row_image_nonempty. exact Hi.
    - inversion Hr; subst. reflexivity. }
  reflexivity.
Qed.
Definition pair_image (tys : list sql_type) (before after : list bool) (p : list cell * list cell) (bs : bytes) : Prop :=
  exists b a, row_image tys before (fst p) b /\ row_image tys after (snd p) a /\ bs = b ++ a.
Lemma update_rows_decode tys ms before after bb ab rows images table_id flags extra : map type_desc tys = map Some ms ->
  bitmap_of before bb -> length before = length tys -> bitmap_of after ab -> length after = length tys ->
  N.of_nat (length tys) < 2 ^ 32 - 7 -> (In true before \/ In true after \/ images = []) ->
  Forall2 (fun p bs => exists b a, row_image tys before (fst p) b /\ row_image tys after (snd p) a /\ bs = b ++ a) rows images ->
  update_rows_of (mk_rd2 table_id flags (N.of_nat (length extra) + 2) (rows_head extra tys ++ bb ++ ab ++ concat images)) ms
  = Ok (mk_update_rows extra (N.of_nat (length tys)) bb ab (map (fun p => (map cell_value (fst p), map cell_value (snd p))) rows)).
Proof.
  intros D Hb Lp Ha Lq Hn Hi Hr. unfold update_rows_of. cbn [rd2_extra_data_len rd2_payload].
  assert (E : read_update_rows (N.of_nat (length extra) + 2) ms (rows_head extra tys ++ bb ++ ab ++ concat images)
    = (Ok (mk_update_rows extra (N.of_nat (length tys)) bb ab (map (fun p => (map cell_value (fst p), map cell_value (snd p))) rows)), [])); [|rewrite E; reflexivity].
  unfold read_update_rows, rows_head. rewrite <- app_assoc.
  lift ltac:(unfold csub; destruct (N.ltb_spec (N.of_nat (length extra) + 2) 2); [lia|reflexivity]).
  eapply eq_trans; [eapply pbind_ok; apply rd_len; unfold blen; lia|]. cbv beta.
  eapply eq_trans; [eapply pbind_ok; apply n_cols_read; exact Hn|]. cbv beta iota.
  pose proof Hb as [Lb _]. pose proof Ha as [La _].
  eapply eq_trans; [eapply pbind_ok; apply rd_len; unfold blen; rewrite Lb, Lp; lia|]. cbv beta.
  eapply eq_trans; [eapply pbind_ok; apply rd_len; unfold blen; rewrite La, Lq; lia|]. cbv beta.
  lift ltac:(rewrite <- Lp; apply count_present_spec; exact Hb).
  lift ltac:(rewrite <- Lq; apply count_present_spec; exact Ha).
  eapply eq_trans; [eapply pbind_ok|].
  { unfold while_remaining.
    assert (Hp : forall (b : list cell * list cell) bs rest, pair_image tys before after b bs ->
      (before_row <- read_row_image (N.of_nat (length tys)) bb (length (filter (fun b => b) before)) ms ;;
       after_row <- read_row_image (N.of_nat (length tys)) ab (length (filter (fun b => b) after)) ms ;;
       pret (before_row, after_row)) (bs ++ rest) = (Ok (map cell_value (fst b), map cell_value (snd b)), rest)).
    { intros b bs rest (x & y & Hx & Hy & ->). rewrite <- app_assoc.
      eapply eq_trans; [eapply pbind_ok; eapply row_image_read; eassumption|]. cbv beta.
      eapply eq_trans; [eapply pbind_ok; eapply row_image_read; eassumption|]. reflexivity. }
    destruct Hi as [Hi | [Hi | ->]].
    - apply (pwhile_rel _ (pair_image tys before after) (fun p => (map cell_value (fst p), map cell_value (snd p)))) with (l := rows); auto.
      intros b bs (x & y & Hx & Hy & ->). rewrite app_length. pose proof (row_image_nonempty _ _ _ _ Hi Hx). lia.
    - apply (pwhile_rel _ (pair_image tys before after) (fun p => (map cell_value (fst p), map cell_value (snd p)))) with (l := rows); auto.
      intros b bs (x & y & Hx & Hy & ->). rewrite app_length. pose proof (row_image_nonempty _ _ _ _ Hi Hy). lia.
    - inversion Hr; subst. reflexivity. }
  reflexivity.
Qed.
Lemma rows_data_read table_id flags extra payload : table_id < 2 ^ 48 -> flags < 2 ^ 16 -> N.of_nat (length extra) + 2 < 2 ^ 16 ->
  let d := mk_rd2 table_id flags (N.of_nat (length extra) + 2) payload in
  read_write_rows_v2 (rows_event_bytes table_id flags extra payload) = (Ok d, []) /\
  read_update_rows_v2 (rows_event_bytes table_id flags extra payload) = (Ok d, []) /\
  read_delete_rows_v2 (rows_event_bytes table_id flags extra payload) = (Ok d, []).
Proof.
  intros. unfold rows_event_bytes.
  assert (R : read_write_rows_v2 (wle 6 table_id ++ wle 2 flags ++ wle 2 (N.of_nat (length extra) + 2) ++ payload) = (Ok d, [])).
  { unfold read_write_rows_v2. rsteps. reflexivity. }
  splits; [exact R| |]; (eapply eq_trans; [eapply pbind_ok; exact R|]; reflexivity).
Qed.
Lemma rows_v1_read table_id flags payload : table_id < 2 ^ 48 -> flags < 2 ^ 16 ->
  let bs := wle 6 table_id ++ wle 2 flags ++ payload in let d := mk_rd1 table_id flags payload in
  read_write_rows_v1 bs = (Ok d, []) /\ read_update_rows_v1 bs = (Ok d, []) /\ read_delete_rows_v1 bs = (Ok d, []).
Proof.
  intros. assert (R : read_write_rows_v1 bs = (Ok d, [])) by (unfold read_write_rows_v1, bs; rsteps; reflexivity).
  splits; [exact R| |]; (eapply eq_trans; [eapply pbind_ok; exact R|]; reflexivity).
Qed.

(** findings *)
Lemma read_log_cols_none n : forall i cb ms bs, (i + n <= 8 * length cb)%nat -> (forall k, (i <= k < i + n)%nat -> bit cb k = false) ->
  read_log_cols n i cb ms bs = (Ok (repeat LNull n), bs).
Proof.
  induction n; intros i cb ms bs L B; [reflexivity|]. cbn [read_log_cols].
  lift ltac:(apply bm_index_spec; lia). rewrite B by lia. eapply eq_trans; [eapply pbind_ok; reflexivity|]. cbv beta.
  eapply eq_trans; [eapply pbind_ok; apply IHn; [lia|intros; apply B; lia]|]. reflexivity.
Qed.
Lemma pwhile_stuck {A} (p : parser A) bs a : (forall bs, p bs = (Ok a, bs)) -> bs <> [] -> forall fuel, pwhile fuel p bs = (Loop, bs).
Proof.
  intros Hp Hn. destruct bs as [|b bs]; [contradiction|]. induction fuel; [reflexivity|]. cbn [pwhile].
  erewrite pbind_ok; [|apply Hp]. cbv beta. unfold pbind. rewrite IHfuel. reflexivity.
Qed.
Lemma rows_loop n ms pb more table_id flags extra : bitmap_of (repeat false n) pb -> N.of_nat n < 2 ^ 32 - 7 -> more <> [] ->
  rows_of (mk_rd2 table_id flags (N.of_nat (length extra) + 2) ((extra ++ wlenenc (N.of_nat n)) ++ pb ++ more)) ms = Loop.
Proof.
  intros Hb Hn Hm. unfold rows_of. cbn [rd2_extra_data_len rd2_payload]. unfold read_rows_v2. rewrite <- app_assoc.
  erewrite pbind_ok; [|apply rd_lift; unfold csub; destruct (N.ltb_spec (N.of_nat (length extra) + 2) 2); [lia|reflexivity]]. cbv beta.
  erewrite pbind_ok; [|apply rd_len; unfold blen; lia]. cbv beta.
  erewrite pbind_ok; [|apply n_cols_read; exact Hn]. cbv beta iota.
  pose proof Hb as [Lb Bb]. rewrite repeat_length in *.
  erewrite pbind_ok; [|apply rd_len; unfold blen; rewrite Lb; lia]. cbv beta.
  pose proof (count_present_spec _ _ Hb) as C. rewrite repeat_length in C.
  assert (F0 : forall n, length (filter (fun b : bool => b) (repeat false n)) = 0%nat) by (clear; induction n; auto).
  rewrite F0 in C. erewrite pbind_ok; [|apply rd_lift; exact C]. cbv beta.
  unfold while_remaining, pbind. rewrite (pwhile_stuck _ more (repeat LNull n)); [reflexivity| |exact Hm].
  intros bs. unfold read_row_image. eapply eq_trans; [eapply pbind_ok; apply (rd_len bs []); reflexivity|]. cbv beta.
  lift ltac:(reflexivity). unfold read_log_row. eapply eq_trans.
  { eapply pbind_ok. apply rd_lift. unfold with_capacity. destruct (N.leb_spec (2 ^ 63) (40 * N.of_nat n)) as [Q|Q]; [exfalso|reflexivity].
    change (2 ^ 32 - 7) with 4294967289 in Hn. change (2 ^ 63) with 9223372036854775808 in Q. lia. }
  rewrite Nat2N.id. apply read_log_cols_none; [lia|]. intros k Hk. rewrite Bb by lia. 
  clear. revert k. induction n; intros [|k]; cbn; auto.
Qed.
Lemma rows_extra_len table_id flags len payload ms : len < 2 ->
  rows_of (mk_rd2 table_id flags len payload) ms = Panic PArith /\ update_rows_of (mk_rd2 table_id flags len payload) ms = Panic PArith.
Proof.
  intros H. unfold rows_of, update_rows_of, read_rows_v2, read_update_rows. cbn [rd2_extra_data_len rd2_payload].
  unfold csub. rewrite (proj2 (N.ltb_lt _ _) H). split; reflexivity.
Qed.
