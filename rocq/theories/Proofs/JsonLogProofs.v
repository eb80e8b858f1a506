(** * JSON documents from the bytes of a server's log *)
From Coq Require Import Strings.String.
From Coq Require Import List NArith ZArith Lia Arith Bool.
From Verif Require Import Model.Base Model.BytesParser Model.Utf8 Model.Auth Model.Fmt Model.Time Model.Decimal Model.Col Model.Row Model.Rows Model.Event Model.Stmt Model.Transform
  Spec.Nums Spec.Wire Spec.BitmapSpec Spec.Temporal Spec.DecimalSpec Spec.EventBodies Spec.BinlogValues Spec.SqlSpec Spec.JsonSpec Spec.Replay Spec.ServerLog Spec.StoredValues Spec.JsonLog
  Proofs.BaseLemmas Proofs.BytesParserProofs Proofs.CodecProofs Proofs.WireLemmas Proofs.CmdProofs Proofs.TimeProofs Proofs.DecimalProofs Proofs.DecimalExact
  Proofs.CalendarProofs Proofs.SqlProofs Proofs.SqlFindings Proofs.TextExact Proofs.RowsProofs Proofs.BinlogValueProofs Proofs.ServerLogProofs Proofs.ExactProofs Proofs.JsonProofs.
Import ListNotations.
Open Scope N_scope.

Section JsonLog.
  Variable widen : N -> N.
  Variables fmt_f32 fmt_f64 : N -> bytes.
  Notation json_written := (json_written widen fmt_f32 fmt_f64).
  Notation as_json := (as_json widen fmt_f32 fmt_f64).
  Notation logged := (logged fmt_f32 fmt_f64).
  Notation json v u := (rbind (sv_of_binlog v u) (to_json_value widen)).

  Lemma json_written_read ty u x bs : json_written ty u x bs ->
    exists v, BinlogValues.stored ty v bs /\ decodes_well ty v /\ logged u v x /\ json_expressible widen v /\ v <> LNull.
  Proof.
    intros H. destruct H as [ty u x bs Hty W|u bits neg s H1 H2 H3 H4|u bits neg s H1 H2 H3 H4|u max s H1 H2 H3|u len s H1 H2 H3].
    - destruct (written_read _ _ _ _ _ _ _ W) as (v & S & D & L & X & Nn). exists v. splits; try assumption.
      destruct S; try contradiction Hty; try exact I; exact X.
    - exists (LFloat bits). splits; [constructor; assumption|exact I|constructor; assumption|exact H4|discriminate].
    - exists (LDouble bits). splits; [constructor; assumption|exact I|constructor; assumption|exact H4|discriminate].
    - exists (LVarString s). splits; [constructor; assumption|exact I|constructor|exact H3|discriminate].
    - exists (LString s). splits; [constructor; assumption|exact I|constructor|exact H3|discriminate].
  Qed.
  (** what the JSON value of a logged value says, in terms of the column *)
  Lemma means_as_json ty v x bs u j : BinlogValues.stored ty v bs -> logged u v x -> json_means widen v x j -> as_json ty x j.
  Proof.
    intros S L M. destruct S; inversion L; subst; cbn [json_means] in M; subst; cbn [JsonLog.as_json]; try reflexivity; try exact M.
    - eexists. split; [eassumption|]. split; [eassumption|reflexivity].
    - eexists. split; [eassumption|]. split; [eassumption|reflexivity].
  Qed.
  Theorem json_value_right ty u x bs : json_written ty u x bs ->
    exists m v j, type_desc ty = Some m /\ (forall rest, read_binlog_value m (bs ++ rest) = (Ok v, rest)) /\
      json v u = Ok (j, is_binary x) /\ as_json ty x j.
  Proof.
    intros W. destruct (json_written_read _ _ _ _ W) as (v & S & D & L & X & _).
    assert (M : exists m, type_desc ty = Some m) by (destruct S; eexists; reflexivity). destruct M as (m & M).
    destruct (json_value_ok widen fmt_f32 fmt_f64 u v x L X) as (sv & j & b & E1 & E2 & E3 & E4).
    exists m, v, j. split; [exact M|]. split; [intros rest; exact (value_decodes ty v bs m rest S D M)|]. split; [|exact (means_as_json _ _ _ _ _ _ S L E3)].
    rewrite E1. cbn [rbind]. rewrite E2. f_equal. f_equal. destruct b; [destruct E4 as (s & ->); reflexivity|]. destruct x; try reflexivity. exfalso. exact (E4 _ eq_refl).
  Qed.

  (** ** Exactly which *)
  Lemma finite_back n : finite64 n = true -> finite_double n.
  Proof. intros F K. pose proof (finite_double_ok n) as G. unfold finite64 in F. apply negb_true_iff, N.eqb_neq in F. apply F.
    rewrite N.shiftr_div_pow2. change 0x7ff with (N.ones 11) at 1. rewrite N.land_ones. exact K. Qed.
  Lemma decimal_text_number scale i f st : decimal_text scale false i f st -> number_text st.
  Proof.
    intros (si & Ni & ->). cbn [app]. destruct (numeral_digits _ _ Ni) as [Hs Nn]. destruct (N.eqb_spec scale 0) as [_|_].
    - exists si, []. rewrite !app_nil_r. split; [exact Nn|]. split; [apply digits_is_dig; exact Hs|left; reflexivity].
    - exists si, (digits (N.to_nat scale) f). split; [exact Nn|]. split; [|right; reflexivity]. rewrite forallb_app. apply andb_true_intro. split; apply digits_is_dig; [exact Hs|].
      apply Forall_forall. intros c Hc. exact (digits_in _ _ _ Hc).
  Qed.
  Theorem json_comes_through ty u x bs : holds fmt_f32 fmt_f64 ty u x bs ->
    (exists m v j b, type_desc ty = Some m /\ (forall rest, read_binlog_value m (bs ++ rest) = (Ok v, rest)) /\
       json v u = Ok (j, b) /\ as_json ty x j) -> json_written ty u x bs.
  Proof.
    intros H (m & v & j & b & D & R & J & A). destruct H; cbn [type_desc] in D; try discriminate D; try (injection D as <-);
      try (apply jw_same; [exact I|]; econstructor; eassumption).
    - (* float *)
      pose proof (value_decodes SFloat _ _ _ [] (st_float bits H) I eq_refl) as R1. rewrite (R []) in R1. injection R1 as ->.
      apply jw_float; try assumption. cbn in J. destruct (finite64 (widen bits)) eqn:F; [|discriminate]. apply finite_back. exact F.
    - pose proof (value_decodes SDouble _ _ _ [] (st_double bits H) I eq_refl) as R1. rewrite (R []) in R1. injection R1 as ->.
      apply jw_double; try assumption. cbn in J. destruct (finite64 bits) eqn:F; [|discriminate]. apply finite_back. exact F.
    - (* decimal *)
      pose proof (R []) as R0. cbn [read_binlog_value] in R0.
      destruct (N.ltb_spec prec scale); [lia|]. unfold pmap, pbind in R0. destruct (read_decimal _ _ _) as [[d| | |] r] eqn:Ed; try discriminate. injection R0 as <- ->.
      cbn [JsonLog.as_json] in A. cbv zeta in A. subst j.
      assert (L : fmt_decimal d = Ok ((if neg then [n2b 45] else []) ++ s)).
      { cbn [sv_of_binlog] in J. unfold new_mydecimal in J. destruct (fmt_decimal d) as [t| | |]; cbn [rmap rbind] in J; try discriminate.
        unfold to_json_value in J. cbn [sv_val] in J. destruct (utf8_valid t); [injection J as <- _; reflexivity|discriminate]. }
      assert (Lt : rbind (sv_of_binlog (LNewDecimal d) u) (param_text fmt_f32 fmt_f64) = Ok ((if neg then [n2b 45] else []) ++ s)).
      { cbn [sv_of_binlog] in J |- *. unfold new_mydecimal in *. rewrite L in *. cbn [rmap rbind] in *. unfold to_json_value in J. unfold param_text, to_sql_literal. cbn [sv_val] in *.
        destruct (utf8_valid _); [reflexivity|discriminate]. }
      destruct (decimal_right fmt_f32 fmt_f64 true prec scale neg i f s d u _ ltac:(lia) H1 H2 Ed Lt H4 (reads_signed true neg s (decimal_text_number _ _ _ _ H4))) as [E P].
      apply jw_same; [exact I|]. apply wr_decimal; assumption.
    - (* date *)
      pose proof (value_decodes SDate _ _ _ [] (st_date y m0 d H H0 H1) I eq_refl) as R1. rewrite (R []) in R1. injection R1 as ->.
      apply jw_same; [exact I|]. apply wr_date. cbn [sv_of_binlog] in J. destruct (from_ymd y m0 d) as [nd| | |] eqn:E; try discriminate. exact (from_ymd_inv _ _ _ _ H E).
    - (* time *)
      apply jw_same; [exact I|].
      destruct (t_neg t) eqn:En; [|apply wr_time; auto]. destruct (N.eq_dec (t_micro t) 0) as [E0|E0]; [apply wr_time; auto|].
      destruct (N.le_gt_cases 5 dec) as [E5|E5]; [apply wr_time; auto|]. exfalso.
      pose proof (R []) as R0. cbn [read_binlog_value] in R0. unfold pmap, pbind in R0. rewrite (time_neg_fraction dec t [] H En E0 ltac:(lia)) in R0. injection R0 as <-.
      cbn [JsonLog.as_json] in A. subst j.
      assert (H6 : stored_time 6 t).
      { destruct H as (A1 & A2 & A3 & A4 & A5 & A6 & A7 & A8). unfold stored_time. split; [lia|]. do 5 (split; [assumption|]). split; [change (10 ^ (6 - 6)) with 1; apply N.mod_1_r|assumption]. }
      pose proof (json_time_text widen fmt_f32 fmt_f64 t H6) as J1. cbn [sv_of_binlog rbind] in J. unfold to_json_value, new_mytime in J. cbn [sv_val] in J.
      set (t' := mk_time _ _ _ _ _ _) in J. destruct (json_time t') as [s2| | |] eqn:J2; cbn [rmap rbind] in J; try discriminate. injection J as J _. rewrite J in J2.
      unfold json_time in J1, J2. subst t'. cbn [t_days t_hour t_minute t_second t_neg t_micro] in J2. rewrite En in J1.
      destruct (cmul 32 (t_days t) 24) as [h1| | |]; cbn [rbind] in J1, J2; try discriminate. destruct (cadd 32 h1 (t_hour t)) as [h2| | |]; cbn [rbind] in J1, J2; try discriminate.
      injection J1 as J1. injection J2 as J2. rewrite <- J1 in J2. injection J2 as J2. apply app_inv_head in J2.
      repeat match goal with K : _ :: _ = _ :: _ |- _ => injection K as K; apply app_inv_head in K end.
      destruct (N.eqb_spec (t_micro t) 0); [contradiction|].
      assert (Hb : 10000000 <= borrow_error dec) by (unfold borrow_error; destruct (dec <=? 2); lia).
      destruct (N.eqb_spec (t_micro t + borrow_error dec) 0); [lia|]. rename J2 into K. apply (f_equal (@length byte)) in K. cbn [app length str] in K.
      destruct H6 as (_ & _ & _ & _ & _ & H6 & _). symmetry in K. rewrite fmt_pad_6, digits_length in K by exact H6.
      unfold fmt_pad in K. rewrite app_length in K. destruct (fmt_n_numeral (t_micro t + borrow_error dec)) as (k & Ek & Hk & _). rewrite Ek, digits_length in K.
      assert (Hk7 : (7 <= k)%nat).
      { destruct (Nat.le_gt_cases 7 k) as [?|Hlt]; [assumption|]. exfalso.
        assert (10 ^ N.of_nat (S k) <= 10 ^ 7) by (apply N.pow_le_mono_r; [discriminate|lia]). change (10 ^ 7) with 10000000 in *. lia. }
      lia.
    - (* datetime *)
      pose proof (value_decodes (SDatetime dec) _ _ _ [] (st_datetime dec t H) I eq_refl) as R1. rewrite (R []) in R1. injection R1 as ->.
      cbn [JsonLog.as_json] in A. subst j. destruct H as (A1 & A2 & A3 & A4 & A5 & A6 & A7 & A8 & A9).
      assert (Hc : calendar_date (dt_year t) (dt_month t) (dt_day t)).
      { cbn [sv_of_binlog] in J. destruct (from_ymd _ _ _) as [nd| | |] eqn:E; try discriminate. exact (from_ymd_inv _ _ _ _ A2 E). }
      pose proof (json_datetime_fraction widen t u Hc A5 A6 A7 A8) as F. unfold json_of in F. rewrite J in F. injection F as F _.
      unfold text_datetime, whole in F. cbn [dt_year dt_month dt_day dt_hour dt_minute dt_second dt_micro] in F.
      repeat apply app_inv_head in F. apply jw_same; [exact I|]. apply wr_datetime; try assumption. exact (text_fraction_0 _ A8 F).
    - (* timestamp *)
      destruct H as (A1 & A2 & A3 & A4 & A5 & A6 & A7 & A8 & A9).
      destruct (timestamp_read dec (epoch_seconds t) (dt_micro t) v ltac:(lia) A1 R) as [-> _].
      cbn [frac_bytes]. rewrite app_nil_r. change (10 ^ (6 - 0)) with 1000000 in A9. rewrite N.mod_small in A9 by exact A8.
      apply jw_same; [exact I|]. apply wr_timestamp; assumption.
    - (* the zero timestamp *)
      exfalso. destruct (timestamp_read dec 0 0 v ltac:(reflexivity) H R) as [-> ->]. cbn [JsonLog.as_json] in A. subst j.
      vm_compute in J. discriminate J.
    - (* bit *)
      set (k := N.to_nat ((m0 + 7) / 8)) in *. assert (Hk : N.of_nat k = (m0 + 7) / 8) by apply N2Nat.id.
      assert (Hn : n < 2 ^ (8 * N.of_nat k)) by (eapply N.lt_le_trans; [exact H0|]; rewrite Hk; apply N.pow_le_mono_r; [discriminate|lia]).
      assert (Hl : N.of_nat (length (wbe k n)) = (m0 + 7) / 8) by (rewrite wbe_length; exact Hk).
      pose proof (value_decodes (SBit m0) _ _ _ [] (st_bit m0 (wbe k n) H Hl) I eq_refl) as R1. rewrite (R []) in R1. injection R1 as ->.
      apply jw_same; [exact I|]. apply wr_bit; [exact H|exact H0|reflexivity|]. cbn [JsonLog.as_json] in A. subst j.
      assert (H8 : (length (wbe k n) <= 8)%nat) by (rewrite wbe_length; lia).
      pose proof (json_bit_order widen (wbe k n) u H8) as F. unfold json_of in F. rewrite J in F. injection F as F _.
      apply le_val_inj; [apply rev_length|]. pose proof (wbe_val k n Hn) as V. unfold be_val in V. rewrite V. lia.
    - pose proof (value_decodes (SVarchar max) _ _ _ [] (st_varchar max s H H0) I eq_refl) as R1. rewrite (R []) in R1. injection R1 as ->.
      apply jw_varchar; try assumption. cbn in J. destruct (utf8_valid s); [reflexivity|discriminate].
    - pose proof (value_decodes (SChar len) _ _ _ [] (st_char len s H H0) I eq_refl) as R1. rewrite (R []) in R1. injection R1 as ->.
      apply jw_char; try assumption. cbn in J. destruct (utf8_valid s); [reflexivity|discriminate].
    - specialize (R []). discriminate R.
  Qed.
  Theorem json_written_holds ty u x bs : json_written ty u x bs -> holds fmt_f32 fmt_f64 ty u x bs.
  Proof. intros H. destruct H; [exact (written_holds _ _ _ _ _ _ _ H0)|apply hd_float|apply hd_double|apply hd_varchar|apply hd_char]; assumption. Qed.

  (** ** Rows *)
  Notation readable := (json_readable widen fmt_f32 fmt_f64).
  Notation entries := (json_entries widen fmt_f32 fmt_f64).
  Notation members := (members widen fmt_f32 fmt_f64).
  Lemma json_parts_read cols xs parts : json_parts widen fmt_f32 fmt_f64 cols xs parts ->
    exists cells, Forall2 cell_ok (map co_type cols) cells /\ map is_present cells = repeat true (length cols) /\
      map is_null cells = map holds_null xs /\ map cell_bytes cells = parts /\
      forall defs, Forall2 told cols defs -> readable defs (map cell_value cells) xs /\
        forall es, entries defs (map cell_value cells) xs es -> members cols xs es.
  Proof.
    induction 1 as [|c cols xs ps _ (cells & F & P & Nl & B & M)|c cols x xs p ps W _ (cells & F & P & Nl & B & M)].
    - exists []. splits; [constructor|reflexivity|reflexivity|reflexivity|]. intros defs H; inversion H. split; [constructor|]. intros es E. inversion E. constructor.
    - exists (CNull :: cells). cbn [map length repeat is_present is_null holds_null cell_bytes cell_value]. splits; [|f_equal; assumption|f_equal; assumption|f_equal; assumption|].
      + constructor; [exact I|exact F].
      + intros defs H. inversion H as [|? d ? ds T H']; subst. destruct (M _ H') as [M1 M2]. split; [apply jr_cons; [apply lg_null|exact I|exact M1]|].
        intros es E. inversion E as [|? ? ? j ? ? ? es' L J E']; subst. destruct T as (-> & _). apply mb_cons; [exact J|apply M2; exact E'].
    - destruct (json_written_read _ _ _ _ W) as (v & S & D & L & X & Nn). exists (CVal v p :: cells).
      cbn [map length repeat is_present is_null cell_bytes cell_value]. splits; [|f_equal; assumption| |f_equal; assumption|].
      + constructor; [split; assumption|exact F].
      + rewrite Nl. f_equal. destruct x; try reflexivity. exfalso. apply Nn. inversion L; reflexivity.
      + intros defs H. inversion H as [|? d ? ds T H']; subst. destruct (M _ H') as [M1 M2]. pose proof (told_unsigned _ _ T) as U.
        split; [apply jr_cons; [rewrite U; exact L|exact X|exact M1]|].
        intros es E. inversion E as [|? ? ? j ? ? ? es' L' J E']; subst. destruct T as (-> & _). apply mb_cons; [exact (means_as_json _ _ _ _ _ _ S L J)|apply M2; exact E'].
  Qed.
  Definition row_good (cols : list column) (cells : list cell) (xs : row) : Prop :=
    length cells = length cols /\
    forall defs, Forall2 told cols defs -> readable defs (map cell_value cells) xs /\ forall es, entries defs (map cell_value cells) xs es -> members cols xs es.
  Lemma json_row_read cols xs bs : json_row_written widen fmt_f32 fmt_f64 cols xs bs ->
    exists cells, row_image (map co_type cols) (repeat true (length cols)) cells bs /\ row_good cols cells xs.
  Proof.
    intros (nulls & parts & R & B & ->). destruct (json_parts_read _ _ _ R) as (cells & F & P & Nl & E & M).
    exists cells. split; [|split; [|exact M]].
    - split; [exact F|]. split; [exact P|]. exists nulls. rewrite (all_kept _ _ P), Nl, E. split; [exact B|reflexivity].
    - apply (f_equal (@length bool)) in P. rewrite map_length, repeat_length in P. exact P.
  Qed.
  Lemma json_rows_read cols rows images : Forall2 (json_row_written widen fmt_f32 fmt_f64 cols) rows images ->
    exists cellss, Forall2 (row_image (map co_type cols) (repeat true (length cols))) cellss images /\ Forall2 (row_good cols) cellss rows.
  Proof.
    induction 1 as [|xs bs rows images W _ (cs & F & M)]; [exists []; split; constructor|].
    destruct (json_row_read _ _ _ W) as (cells & I & M1). exists (cells :: cs). split; constructor; assumption.
  Qed.
  Lemma json_pairs_read cols rows images :
    Forall2 (fun p bs => exists b a, json_row_written widen fmt_f32 fmt_f64 cols (fst p) b /\ json_row_written widen fmt_f32 fmt_f64 cols (snd p) a /\ bs = b ++ a) rows images ->
    exists cellss, Forall2 (fun p bs => exists b a, row_image (map co_type cols) (repeat true (length cols)) (fst p) b /\
        row_image (map co_type cols) (repeat true (length cols)) (snd p) a /\ bs = b ++ a) cellss images /\
      Forall2 (fun v x => row_good cols (fst v) (fst x) /\ row_good cols (snd v) (snd x)) cellss rows.
  Proof.
    induction 1 as [|p bs rows images (b & a & W1 & W2 & ->) _ (cs & F & M)]; [exists []; split; constructor|].
    destruct (json_row_read _ _ _ W1) as (c1 & I1 & M1). destruct (json_row_read _ _ _ W2) as (c2 & I2 & M2). exists ((c1, c2) :: cs).
    split; [constructor; [exists b, a; auto|assumption]|]. constructor; [cbn [fst snd]; auto|exact M].
  Qed.
  Lemma binary_names_columns cols defs xs ns : Forall2 told cols defs -> binary_names defs xs ns ->
    ns = map (fun p => co_name (fst p)) (filter (fun p => is_binary (snd p)) (combine cols xs)).
  Proof.
    intros T B. revert cols T. induction B as [|d bs ds xs ns B IH|d x ds xs ns Hx B IH]; intros cols T; inversion T as [|c ? cols' ? Tc T']; subst.
    - reflexivity.
    - cbn [combine filter snd is_binary map fst]. rewrite <- (IH _ T'). destruct Tc as (-> & _). reflexivity.
    - cbn [combine filter snd]. replace (is_binary x) with false by (destruct x; try reflexivity; exfalso; exact (Hx _ eq_refl)). apply IH. exact T'.
  Qed.
  Lemma told_names cols defs : Forall2 told cols defs -> map cd_name defs = map co_name cols /\ length defs = length cols.
  Proof. induction 1 as [|c d cols defs (E & _) _ (IH1 & IH2)]; [split; reflexivity|]. cbn [map length]. rewrite IH1, IH2, E. split; reflexivity. Qed.
  Lemma row_object_good t cells xs defs m : Forall2 told (dc_cols t) defs -> row_good (dc_cols t) cells xs ->
    row_object widen fmt_f32 fmt_f64 defs (map cell_value cells) xs m -> row_as_object widen fmt_f32 fmt_f64 t xs (Some m).
  Proof. intros T (_ & G) (es & E & O). exists es, m. split; [exact (proj2 (G _ T) _ E)|]. split; [exact O|reflexivity]. Qed.
  Lemma forall3_docs {A B C} (R : A -> B -> C -> Prop) (P : B -> C -> Prop) (Q : A -> B -> Prop) la lb lc :
    forall3 R la lb lc -> Forall2 Q la lb -> (forall a b c, Q a b -> R a b c -> P b c) -> Forall2 P lb lc.
  Proof. intros F G H. induction F as [|a b c la lb lc F1 F IH]; inversion G; subst; constructor; eauto. Qed.
  Lemma first_all {A} (l : list A) k : length l = k -> firstn k l = l.
  Proof. intros <-. apply firstn_all. Qed.

  (** ** Events *)
  Section Event.
    Variables (t : declared) (defs : list column_def).
    Hypothesis Hok : declared_ok t.
    Hypothesis Hnames : NoDup (map co_name (dc_cols t)).
    Hypothesis Htold : Forall2 told (dc_cols t) defs.
    Let k := length (dc_cols t).
    Lemma event_readable cells xs : row_good (dc_cols t) cells xs -> readable (firstn k defs) (firstn k (map cell_value cells)) xs.
    Proof. intros (L & G). rewrite !first_all; [apply (G _ Htold)|rewrite map_length; exact L|apply (told_names _ _ Htold)]. Qed.
    Lemma names_nodup : NoDup (map cd_name defs).
    Proof. rewrite (proj1 (told_names _ _ Htold)). exact Hnames. Qed.
    Lemma first_present_defs pb : all_present t pb -> SqlSpec.first_present (length defs) k pb.
    Proof. intros P. rewrite (proj2 (told_names _ _ Htold)). exact (present_first t pb P). Qed.
    Lemma cells_first cells xs : row_good (dc_cols t) cells xs -> firstn k (map cell_value cells) = map cell_value cells.
    Proof. intros (L & _). apply first_all. rewrite map_length. exact L. Qed.
    Lemma defs_first : firstn k defs = defs.
    Proof. apply first_all, (told_names _ _ Htold). Qed.
    Lemma insert_docs id flags extra pb rows images : rows_fields_ok id flags extra -> all_present t pb ->
      Forall2 (json_row_written widen fmt_f32 fmt_f64 (dc_cols t)) rows images ->
      exists r docs, rows_of (mk_rd2 id flags (N.of_nat (length extra) + 2) (rows_head extra (dc_types t) ++ pb ++ concat images)) (metas t) = Ok r /\
        json_from_insert widen (dc_db t) (dc_name t) r defs = Ok docs /\ Forall2 (insert_doc widen fmt_f32 fmt_f64 t) rows docs.
    Proof.
      intros _ P R. destruct (json_rows_read _ _ _ R) as (cs & I & M). eexists.
      assert (F : Forall2 (fun row xs => readable (firstn k defs) (firstn k row) xs) (map (map cell_value) cs) rows).
      { clear - M Htold. induction M as [|c x cs rows G _ IH]; [constructor|]. cbn [map]. constructor; [apply event_readable; exact G|exact IH]. }
      destruct (insert_json widen fmt_f32 fmt_f64 (dc_db t) (dc_name t) (mk_rows extra (N.of_nat (length (dc_types t))) pb (map (map cell_value) cs)) defs k rows
        names_nodup (first_present_defs pb P) F) as (docs & E & D). exists docs. split; [|split; [exact E|]].
      - apply (rows_decode _ _ (repeat true k)); [apply metas_some, Hok|exact P|rewrite repeat_length; symmetry; apply types_length|apply few, Hok|left; apply some_true, Hok|exact I].
      - cbn [r_rows] in D. assert (Q : Forall2 (fun row xs => exists cells, row = map cell_value cells /\ row_good (dc_cols t) cells xs) (map (map cell_value) cs) rows).
        { clear - M. induction M as [|c x cs rows G _ IH]; [constructor|]. cbn [map]. constructor; [exists c; auto|exact IH]. }
        apply (forall3_docs _ _ _ _ _ _ D Q). intros row xs doc (cells & -> & G) (m & E1 & O & B).
        rewrite (cells_first _ _ G), defs_first in *. unfold insert_doc. rewrite E1. cbn [j_type j_db j_tbl j_before j_after j_base64]. splits; try reflexivity.
        + exact (row_object_good _ _ _ _ _ Htold G O).
        + exact (binary_names_columns _ _ _ _ Htold B).
    Qed.
    Lemma delete_docs id flags extra pb rows images : rows_fields_ok id flags extra -> all_present t pb ->
      Forall2 (json_row_written widen fmt_f32 fmt_f64 (dc_cols t)) rows images ->
      exists r docs, rows_of (mk_rd2 id flags (N.of_nat (length extra) + 2) (rows_head extra (dc_types t) ++ pb ++ concat images)) (metas t) = Ok r /\
        json_from_delete widen (dc_db t) (dc_name t) r defs = Ok docs /\ Forall2 (delete_doc widen fmt_f32 fmt_f64 t) rows docs.
    Proof.
      intros _ P R. destruct (json_rows_read _ _ _ R) as (cs & I & M). eexists.
      assert (F : Forall2 (fun row xs => readable (firstn k defs) (firstn k row) xs) (map (map cell_value) cs) rows).
      { clear - M Htold. induction M as [|c x cs rows G _ IH]; [constructor|]. cbn [map]. constructor; [apply event_readable; exact G|exact IH]. }
      destruct (delete_json widen fmt_f32 fmt_f64 (dc_db t) (dc_name t) (mk_rows extra (N.of_nat (length (dc_types t))) pb (map (map cell_value) cs)) defs k rows
        names_nodup (first_present_defs pb P) F) as (docs & E & D). exists docs. split; [|split; [exact E|]].
      - apply (rows_decode _ _ (repeat true k)); [apply metas_some, Hok|exact P|rewrite repeat_length; symmetry; apply types_length|apply few, Hok|left; apply some_true, Hok|exact I].
      - cbn [r_rows] in D. assert (Q : Forall2 (fun row xs => exists cells, row = map cell_value cells /\ row_good (dc_cols t) cells xs) (map (map cell_value) cs) rows).
        { clear - M. induction M as [|c x cs rows G _ IH]; [constructor|]. cbn [map]. constructor; [exists c; auto|exact IH]. }
        apply (forall3_docs _ _ _ _ _ _ D Q). intros row xs doc (cells & -> & G) (m & E1 & O & B).
        rewrite (cells_first _ _ G), defs_first in *. unfold delete_doc. rewrite E1. cbn [j_type j_db j_tbl j_before j_after j_base64]. splits; try reflexivity.
        + exact (row_object_good _ _ _ _ _ Htold G O).
        + exact (binary_names_columns _ _ _ _ Htold B).
    Qed.
    Lemma update_docs id flags extra bb ab rows images : rows_fields_ok id flags extra -> all_present t bb -> all_present t ab ->
      Forall2 (fun p bs => exists b a, json_row_written widen fmt_f32 fmt_f64 (dc_cols t) (fst p) b /\
        json_row_written widen fmt_f32 fmt_f64 (dc_cols t) (snd p) a /\ bs = b ++ a) rows images ->
      exists r docs, update_rows_of (mk_rd2 id flags (N.of_nat (length extra) + 2) (rows_head extra (dc_types t) ++ bb ++ ab ++ concat images)) (metas t) = Ok r /\
        json_from_update widen (dc_db t) (dc_name t) r defs = Ok docs /\ Forall2 (update_doc widen fmt_f32 fmt_f64 t) rows docs.
    Proof.
      intros _ Pb Pa R. destruct (json_pairs_read _ _ _ R) as (cs & I & M). eexists.
      assert (F : Forall2 (fun row xs => readable (firstn k defs) (firstn k (fst row)) (fst xs) /\ readable (firstn k defs) (firstn k (snd row)) (snd xs))
        (map (fun p => (map cell_value (fst p), map cell_value (snd p))) cs) rows).
      { clear - M Htold. induction M as [|c x cs rows (G1 & G2) _ IH]; [constructor|]. cbn [map]. constructor; [cbn [fst snd]; split; apply event_readable; assumption|exact IH]. }
      destruct (update_json widen fmt_f32 fmt_f64 (dc_db t) (dc_name t) (mk_update_rows extra (N.of_nat (length (dc_types t))) bb ab
        (map (fun p => (map cell_value (fst p), map cell_value (snd p))) cs)) defs k k rows
        names_nodup (first_present_defs bb Pb) (first_present_defs ab Pa) F) as (docs & E & D). exists docs. split; [|split; [exact E|]].
      - apply (update_rows_decode _ _ (repeat true k) (repeat true k)); [apply metas_some, Hok|exact Pb|rewrite repeat_length; symmetry; apply types_length|exact Pa|
          rewrite repeat_length; symmetry; apply types_length|apply few, Hok|left; apply some_true, Hok|exact I].
      - cbn [u_rows] in D. assert (Q : Forall2 (fun row xs => exists cells, row = (map cell_value (fst cells), map cell_value (snd cells)) /\
          row_good (dc_cols t) (fst cells) (fst xs) /\ row_good (dc_cols t) (snd cells) (snd xs)) (map (fun p => (map cell_value (fst p), map cell_value (snd p))) cs) rows).
        { clear - M. induction M as [|c x cs rows G _ IH]; [constructor|]. cbn [map]. constructor; [exists c; auto|exact IH]. }
        apply (forall3_docs _ _ _ _ _ _ D Q). intros row xs doc (cells & -> & G1 & G2) (m & m' & ns & ns' & E1 & O1 & O2 & B1 & B2 & Mg).
        cbn [fst snd] in *. rewrite (cells_first _ _ G1) in O1. rewrite (cells_first _ _ G2) in O2. rewrite defs_first in *.
        rewrite (binary_names_columns _ _ _ _ Htold B1), (binary_names_columns _ _ _ _ Htold B2) in Mg.
        unfold update_doc. rewrite E1. cbn [j_type j_db j_tbl j_before j_after j_base64]. splits; try reflexivity.
        + exact (row_object_good _ _ _ _ _ Htold G1 O1).
        + exact (row_object_good _ _ _ _ _ Htold G2 O2).
        + exact Mg.
    Qed.
  End Event.
End JsonLog.
