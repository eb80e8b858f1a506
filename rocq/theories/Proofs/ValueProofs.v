(** Proofs about column types, binary and text values and rows *)
From Verif Require Import Model.Base Model.BytesParser Model.LenEnc Model.Bitmap Model.Utf8 Model.Cmd Model.Time Model.Col Model.Row
  Spec.Nums Spec.Codec Spec.LenEncSpec Spec.Wire Spec.BitmapSpec Spec.Packets Spec.Values
  Proofs.BaseLemmas Proofs.BytesParserProofs Proofs.CodecProofs Proofs.LenEncProofs Proofs.BitmapProofs
  Proofs.WireLemmas Proofs.CmdProofs.
Open Scope N_scope.

(** ** column types *)
Lemma column_type_round_trip ct : column_type_of (column_type_code ct) = Ok ct.
Proof. destruct ct; reflexivity. Qed.
Lemma column_type_code_lt ct : column_type_code ct < 256.
Proof. destruct ct; reflexivity. Qed.
Lemma column_type_of_inv n ct : column_type_of n = Ok ct -> n = column_type_code ct.
Proof.
  intros H. destruct n as [|p]; [injection H as <-; reflexivity|].
  do 8 (try destruct p as [p|p|]); cbn in H; try discriminate; injection H as <-; reflexivity.
Qed.
Lemma column_type_of_unknown n : (forall ct, n <> column_type_code ct) -> column_type_of n = Err EConstraint.
Proof.
  intros H. destruct (column_type_of n) as [ct|e|p|] eqn:E.
  - exfalso. apply (H ct). apply column_type_of_inv. exact E.
  - destruct n as [|p]; [discriminate|].
    do 8 (try destruct p as [p|p|]); cbn in E; try discriminate; injection E as <-; reflexivity.
  - exfalso. destruct n as [|q]; [discriminate|]. do 8 (try destruct q as [q|q|]); discriminate.
  - exfalso. destruct n as [|q]; [discriminate|]. do 8 (try destruct q as [q|q|]); discriminate.
Qed.

(** ** binary values *)
Lemma rd_les_value wrap s rest : blen s < 2 ^ 64 ->
  read_les_value wrap (wlstr s ++ rest) = (Ok (wrap s), rest).
Proof. intros H. unfold read_les_value. rstep. reflexivity. Qed.
Lemma read_string_kind ct wrap : string_kind ct = Some wrap -> read_binary_value ct = read_les_value wrap.
Proof. destruct ct; cbn; intros H; try discriminate; injection H as <-; reflexivity. Qed.
Lemma read_is_time ct : is_time ct = true -> read_binary_value ct = read_binary_time.
Proof. destruct ct; cbn; intros H; try discriminate; reflexivity. Qed.
Lemma read_is_datetime ct : is_datetime ct = true -> read_binary_value ct = read_binary_datetime.
Proof. destruct ct; cbn; intros H; try discriminate; reflexivity. Qed.
Lemma sign_byte_lt b : sign_byte b < 2 ^ 8. Proof. destruct b; reflexivity. Qed.
Lemma sign_byte_eq b : (sign_byte b =? 1) = b. Proof. destruct b; reflexivity. Qed.
#[local] Hint Resolve sign_byte_lt : rd.

Lemma read_wire_value ct v w rest : wire_value ct v w -> read_binary_value ct (w ++ rest) = (Ok v, rest).
Proof.
  intros H; destruct H; rewrite <- ?app_assoc.
  all: try (unfold read_binary_value; unfold pmap; rstep; reflexivity).
  - reflexivity.
  - rewrite (read_string_kind _ _ H). apply rd_les_value. exact H0.
  - cbn [read_binary_value]. unfold read_binary_date. rsteps. reflexivity.
  - rewrite (read_is_time _ H). unfold read_binary_time. rsteps. reflexivity.
  - rewrite (read_is_time _ H). unfold read_binary_time. rsteps. rewrite sign_byte_eq. reflexivity.
  - rewrite (read_is_time _ H). unfold read_binary_time. rsteps. rewrite sign_byte_eq. reflexivity.
  - rewrite (read_is_datetime _ H). unfold read_binary_datetime. rsteps. reflexivity.
  - rewrite (read_is_datetime _ H). unfold read_binary_datetime. rsteps. reflexivity.
  - rewrite (read_is_datetime _ H). unfold read_binary_datetime. rsteps. reflexivity.
  - rewrite (read_is_datetime _ H). unfold read_binary_datetime. rsteps. reflexivity.
Qed.

Lemma wu8 n : write_u8 n = wle 1 n.
Proof. rewrite wle_to_le. reflexivity. Qed.
Lemma les_write_wlstr s : str_ok s -> les_write (LesBytes s) = wlstr s.
Proof. intros [H1 H2]. cbn [les_write]. unfold wlstr. rewrite lei_write_wlenenc; auto. Qed.
Lemma lor_0 a b : (N.lor a b =? 0) = (a =? 0) && (b =? 0).
Proof.
  apply eq_true_iff_eq. rewrite andb_true_iff, !N.eqb_eq. apply N.lor_eq_0_iff.
Qed.
Ltac wr := unfold write_ymd, write_hms, write_le_u16, write_le_u32, write_le_u64, write_le_f32, write_le_f64;
  rewrite ?wu8, <- ?wle_to_le, <- ?app_assoc.

Lemma write_value_wire ct v : value_of_type ct v -> wire_value ct v (write_binary_value v).
Proof.
  destruct v; cbn [value_of_type write_binary_value]; intros H.
  all: try (destruct H as [-> H]; wr; constructor; assumption).
  all: try (destruct H as [(wrap & Hk & ->) Hs]; rewrite (les_write_wlstr _ Hs);
            constructor; [exact Hk|exact (proj1 Hs)]).
  - subst. constructor.
  - contradiction.
  - destruct H as (-> & Hy & Hm & Hd). wr. constructor; assumption.
  - destruct H as (Ht & (Hd & Hh & Hm & Hs & Hu) & Hz). destruct t as [neg d h m s us].
    cbn [t_neg t_days t_hour t_minute t_second t_micro zero_time] in *. unfold write_binary_time.
    rewrite !lor_0. unfold zero_time in Hz. cbn [t_days t_hour t_minute t_second t_micro] in Hz.
    destruct ((d =? 0) && (h =? 0) && (m =? 0) && (s =? 0) && (us =? 0)) eqn:E.
    + rewrite (Hz eq_refl). rewrite !andb_true_iff, !N.eqb_eq in E. destruct E as ((((-> & ->) & ->) & ->) & ->).
      wr. constructor. exact Ht.
    + destruct (N.eqb_spec us 0) as [->|]; wr; fold (sign_byte neg).
      * apply (wv_time8 ct neg); assumption.
      * apply wv_time12; assumption.
  - destruct H as (Ht & Hy & Hmo & Hd & Hh & Hm & Hs & Hu). destruct t as [y mo d h m s us].
    cbn [dt_year dt_month dt_day dt_hour dt_minute dt_second dt_micro] in *. unfold write_binary_datetime.
    rewrite !lor_0.
    destruct ((y =? 0) && (mo =? 0) && (d =? 0) && (h =? 0) && (m =? 0) && (s =? 0) && (us =? 0)) eqn:E.
    + rewrite !andb_true_iff, !N.eqb_eq in E. destruct E as ((((((-> & ->) & ->) & ->) & ->) & ->) & ->).
      wr. constructor. exact Ht.
    + destruct ((h =? 0) && (m =? 0) && (s =? 0) && (us =? 0)) eqn:E2.
      * rewrite !andb_true_iff, !N.eqb_eq in E2. destruct E2 as (((-> & ->) & ->) & ->). wr. constructor; assumption.
      * destruct (N.eqb_spec us 0) as [->|]; wr; constructor; assumption.
Qed.

Lemma value_round_trip ct v rest : value_of_type ct v ->
  read_binary_value ct (write_binary_value v ++ rest) = (Ok v, rest).
Proof. intros H. apply read_wire_value, write_value_wire, H. Qed.

Lemma timestamp_read_back ct y mo d h m s us rest : is_datetime ct = true ->
  datetime_fields_ok (mk_dt y mo d h m s us) ->
  read_binary_value ct (write_binary_value (BTimestamp (mk_dt y mo d h m s us)) ++ rest)
  = (Ok (BDateTime (mk_dt y mo d h m s 0)), rest).
Proof.
  intros Ht (Hy & Hmo & Hd & Hh & Hm & Hs & Hu). cbn [dt_year dt_month dt_day dt_hour dt_minute dt_second dt_micro] in *.
  apply read_wire_value. cbn [write_binary_value]. wr. constructor; assumption.
Qed.
Lemma string_251_read_back ct wrap s rest : string_kind ct = Some wrap -> blen s = 251 ->
  read_binary_value ct (write_binary_value (wrap s) ++ rest) = (Ok BNull, s ++ rest).
Proof.
  intros Hk Hs. assert (write_binary_value (wrap s) = les_write (LesBytes s)) as ->.
  { destruct ct; cbn in Hk; try discriminate; injection Hk as <-; reflexivity. }
  rewrite (read_string_kind _ _ Hk). unfold read_les_value.
  eapply eq_trans; [eapply pbind_ok; apply les_251; exact Hs|]. reflexivity.
Qed.
Lemma minus_zero_read_back ct rest : is_time ct = true ->
  read_binary_value ct (write_binary_value (BTime (mk_time true 0 0 0 0 0)) ++ rest)
  = (Ok (BTime (mk_time false 0 0 0 0 0)), rest).
Proof. intros H. rewrite (read_is_time _ H). reflexivity. Qed.

Lemma temporal_bad_length ct l rest : l < 256 ->
  (ct = TDate /\ l <> 0 /\ l <> 4) \/
  (is_time ct = true /\ l <> 0 /\ l <> 8 /\ l <> 12) \/
  (is_datetime ct = true /\ l <> 0 /\ l <> 4 /\ l <> 7 /\ l <> 11) ->
  read_binary_value ct (n2b l :: rest) = (Err EConstraint, rest).
Proof.
  intros Hl [(-> & H)|[(Ht & H)|(Ht & H)]].
  - cbn [read_binary_value]. unfold read_binary_date. rstep.
    destruct l as [|p]; [lia|]. do 3 (try destruct p as [p|p|]); try reflexivity; lia.
  - rewrite (read_is_time _ Ht). unfold read_binary_time. rstep.
    destruct l as [|p]; [lia|]. do 4 (try destruct p as [p|p|]); try reflexivity; lia.
  - rewrite (read_is_datetime _ Ht). unfold read_binary_datetime. rstep.
    destruct l as [|p]; [lia|]. do 4 (try destruct p as [p|p|]); try reflexivity; lia.
Qed.

(** ** binary rows *)
Lemma read_binary_cols_wire cts : forall vs nulls w bm off rest, wire_cols cts vs nulls w ->
  (off + length nulls <= 8 * length bm)%nat ->
  (forall i, (i < length nulls)%nat -> bit bm (i + off) = nth i nulls false) ->
  read_binary_cols cts bm off (w ++ rest) = (Ok vs, rest).
Proof.
  induction cts as [|ct cts IH]; intros vs nulls w bm off rest H; inversion H; subst; clear H; intros Hl Hb.
  - reflexivity.
  - cbn [length] in Hl. cbn [read_binary_cols].
    eapply eq_trans; [eapply pbind_ok; unfold plift; rewrite bm_next_some by lia; reflexivity|].
    pose proof (Hb 0%nat ltac:(cbn; lia)) as H0. cbn [Nat.add nth] in H0. cbv beta iota. rewrite H0.
    rstep. eapply eq_trans; [eapply pbind_ok; eapply (IH _ _ _ bm (S off)); [eassumption|lia|]|].
    + intros i Hi. rewrite <- plus_n_Sm. apply (Hb (S i)). cbn; lia.
    + reflexivity.
  - cbn [length] in Hl. cbn [read_binary_cols].
    eapply eq_trans; [eapply pbind_ok; unfold plift; rewrite bm_next_some by lia; reflexivity|].
    pose proof (Hb 0%nat ltac:(cbn; lia)) as H0. cbn [Nat.add nth] in H0. cbv beta iota. rewrite H0.
    rewrite <- app_assoc.
    eapply eq_trans; [eapply pbind_ok; apply read_wire_value; eassumption|].
    eapply eq_trans; [eapply pbind_ok; eapply (IH _ _ _ bm (S off)); [eassumption|lia|]|].
    + intros i Hi. rewrite <- plus_n_Sm. apply (Hb (S i)). cbn; lia.
    + reflexivity.
Qed.
Lemma wire_cols_lengths cts vs nulls w : wire_cols cts vs nulls w ->
  length vs = length cts /\ length nulls = length cts.
Proof. induction 1; cbn; lia. Qed.
Lemma bitmap_len n : N.shiftr (N.of_nat n + 7 + 2) 3 = N.of_nat ((n + 9) / 8).
Proof.
  rewrite N.shiftr_div_pow2. change (2 ^ 3) with (N.of_nat 8).
  replace (N.of_nat n + 7 + 2) with (N.of_nat (n + 9)) by lia. symmetry. apply Nat2N.inj_div.
Qed.
Lemma read_row cts vs w rest : wire_row cts vs w -> read_binary_row cts (w ++ rest) = (Ok vs, rest).
Proof.
  intros (nulls & bm & cols & Hc & (Hl & Hb) & ->). destruct (wire_cols_lengths _ _ _ _ Hc) as [_ Hn].
  cbn [app]. unfold read_binary_row. rstep. rewrite <- app_assoc.
  eapply eq_trans; [eapply pbind_ok; apply rd_len|].
  { rewrite bitmap_len. unfold blen. rewrite Hl, Hn. reflexivity. }
  eapply read_binary_cols_wire; [exact Hc| |exact Hb]. rewrite Hl.
  pose proof (Nat.div_mod (length nulls + 9) 8 ltac:(lia)). pose proof (Nat.mod_upper_bound (length nulls + 9) 8 ltac:(lia)). lia.
Qed.

(** every row of values can be sent *)
Lemma wire_cols_exist cts vs : Forall2 null_or_value cts vs ->
  wire_cols cts vs (map (fun v => match v with BNull => true | _ => false end) vs)
    (concat (map write_binary_value vs)).
Proof.
  induction 1 as [|ct v cts vs H _ IH]; [constructor|]. cbn [map concat].
  destruct H as [->|H]; [constructor; exact IH|].
  destruct v; try (apply wc_value; [apply write_value_wire; exact H|exact IH]).
  constructor. exact IH.
Qed.
Lemma row_bitmap_exists nulls : row_bitmap nulls (bm_from_iter nulls 2).
Proof.
  destruct (bm_from_iter_spec nulls 2) as (H1 & H2). split.
  - rewrite H1. replace (2 + length nulls + 7)%nat with (length nulls + 9)%nat by lia.
    pose proof (Nat.div_le_mono 8 (length nulls + 9) 8 ltac:(lia) ltac:(lia)) as H.
    change (8 / 8)%nat with 1%nat in H. change (2 / 8 + 1)%nat with 1%nat. lia.
  - intros i Hi. rewrite H2. destruct (Nat.ltb_spec (i + 2) 2); [lia|]. f_equal. lia.
Qed.
Lemma wire_row_exists cts vs : Forall2 null_or_value cts vs -> exists w, wire_row cts vs w.
Proof.
  intros H. eexists. eexists _, _, _. split; [apply wire_cols_exist; exact H|].
  split; [apply row_bitmap_exists|reflexivity].
Qed.

(** ** text rows *)
Lemma rd_text_value c rest : match c with Some s => blen s < 2 ^ 64 | None => True end ->
  read_text_value (text_cell c ++ rest) = (Ok c, rest).
Proof.
  destruct c as [s|]; intros H; unfold read_text_value, text_cell; [rstep; reflexivity|].
  eapply eq_trans; [eapply pbind_ok; apply (proj1 (les_null_round_trip rest))|]. reflexivity.
Qed.
Lemma read_text_row_wire cs rest : N.of_nat (length cs) < 2 ^ 58 ->
  Forall (fun c => match c with Some s => N.of_nat (length s) < 2 ^ 64 | None => True end) cs ->
  read_text_row (N.of_nat (length cs)) (text_row cs ++ rest) = (Ok cs, rest).
Proof.
  intros Hn H. unfold read_text_row, with_capacity.
  destruct (N.leb_spec (2 ^ 63) (32 * N.of_nat (length cs))); [lia|].
  eapply eq_trans; [eapply pbind_ok; reflexivity|]. rewrite Nat2N.id. unfold text_row. rewrite <- flat_map_concat_map.
  apply prepeat_app. intros a r Ha. apply rd_text_value.
  rewrite Forall_forall in H. apply (H _ Ha).
Qed.
