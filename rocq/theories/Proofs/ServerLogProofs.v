From Coq Require Import List NArith ZArith Lia Arith Bool.
From Verif Require Import Model.Base Model.BytesParser Model.Utf8 Model.Time Model.Decimal Model.Col Model.Row Model.Rows Model.Event Model.Auth Model.MyBinlog
  Spec.Nums Spec.Wire Spec.BitmapSpec Spec.Temporal Spec.DecimalSpec Spec.EventBodies Spec.BinlogSpec Spec.BinlogValues Spec.StreamSpec Spec.SqlSpec Spec.Replay
  Spec.DmlSpec Spec.ReplayLog Spec.ServerLog
  Proofs.BaseLemmas Proofs.BytesParserProofs Proofs.WireLemmas Proofs.DecimalProofs Proofs.BinlogValueProofs Proofs.RowsProofs Proofs.ReplayLogProofs.
Import ListNotations.
Open Scope N_scope.

Section Values.
  Variables fmt_f32 fmt_f64 : N -> bytes.
  Variable esc : bool.
  Notation written := (written fmt_f32 fmt_f64 esc).
  Notation logged := (logged fmt_f32 fmt_f64).

  Lemma decimal_exists prec scale neg i f : (prec - scale) mod 9 <> 0 -> i < 10 ^ (prec - scale) -> f < 10 ^ scale ->
    decimal_is (mk_dec (prec - scale) scale neg (int_groups (prec - scale) i ++ frac_buf scale f)) prec scale neg i f.
  Proof.
    intros Hx Hi Hf. destruct (int_groups_facts (prec - scale) i Hx Hi) as (F1 & F2 & F3). destruct (frac_buf_facts scale f Hf) as (G1 & G2 & G3).
    split; [reflexivity|]. split; [reflexivity|]. split; [reflexivity|]. exists (int_groups (prec - scale) i), (frac_buf scale f).
    split; [reflexivity|]. split; [apply Forall_app; split; assumption|]. split; [exact F2|]. split; [exact G2|]. split; [exact F3|exact G3].
  Qed.
  Lemma calendar_small y m d : calendar_date y m d -> y <= 9999 /\ m <= 12 /\ d <= 31.
  Proof.
    intros (A & B & C). split; [lia|]. split; [lia|]. unfold month_days in C.
    assert (m = 1 \/ m = 2 \/ m = 3 \/ m = 4 \/ m = 5 \/ m = 6 \/ m = 7 \/ m = 8 \/ m = 9 \/ m = 10 \/ m = 11 \/ m = 12) as H by lia.
    repeat (destruct H as [->|H]; [revert C; try (destruct (is_leap y)); lia|]). subst m. lia.
  Qed.
  Lemma int_bits u k n z : logged_int u k n z -> n < 2 ^ k.
  Proof. intros H; inversion H; assumption. Qed.
  (** what is written is read, and stands for what was written *)
  Lemma written_read ty u x bs : written ty u x bs ->
    exists v, BinlogValues.stored ty v bs /\ decodes_well ty v /\ logged u v x /\ expressible esc v /\ v <> LNull.
  Proof.
    intros H; destruct H.
    - exists (LTiny n). pose proof (int_bits _ _ _ _ H). splits; [constructor; assumption|exact I|constructor; assumption|exact I|discriminate].
    - exists (LShort n). pose proof (int_bits _ _ _ _ H). splits; [constructor; assumption|exact I|constructor; assumption|exact I|discriminate].
    - exists (LInt24 n). pose proof (int_bits _ _ _ _ H). splits; [constructor; assumption|exact I|constructor; assumption|exact I|discriminate].
    - exists (LLong n). pose proof (int_bits _ _ _ _ H). splits; [constructor; assumption|exact I|constructor; assumption|exact I|discriminate].
    - exists (LLongLong n). pose proof (int_bits _ _ _ _ H). splits; [constructor; assumption|exact I|constructor; assumption|exact I|discriminate].
    - exists (LFloat bits). splits; [constructor; assumption|exact I|constructor; assumption|exact I|discriminate].
    - exists (LDouble bits). splits; [constructor; assumption|exact I|constructor; assumption|exact I|discriminate].
    - exists (LNewDecimal (mk_dec (prec - scale) scale neg (int_groups (prec - scale) i ++ frac_buf scale f))).
      splits; [|assumption| |exact I|discriminate].
      + apply st_decimal; try assumption. apply decimal_exists; assumption.
      + apply (lg_decimal _ _ _ _ (prec - scale) scale neg i f); try assumption.
        rewrite <- (app_nil_r (decimal_bytes _ _ _ _ _)), read_decimal_spec by assumption. reflexivity.
    - exists (LYear 0). splits; [constructor|exact I|apply (lg_year _ _ _ 0)|exact I|discriminate].
    - exists (LYear y). splits; [constructor; assumption|exact I|constructor|exact I|discriminate].
    - exists (LDate y m d). destruct (calendar_small _ _ _ H) as (A & B & C).
      splits; [constructor; assumption|exact I|constructor|exact H|discriminate].
    - exists (LTime t). splits; [constructor; assumption|assumption|constructor| |discriminate].
      destruct H as (A1 & A2 & A3 & A4 & A5 & A6 & A7 & A8). cbn [expressible]. unfold stored_time. split; [lia|]. do 5 (split; [assumption|]). split; [change (10 ^ (6 - 6)) with 1; apply N.mod_1_r|assumption].
    - exists (LDateTime t). destruct (calendar_small _ _ _ H0) as (A & B & C).
      splits; [constructor|exact I|constructor| |discriminate].
      + unfold stored_datetime. splits; try assumption; rewrite H4; [reflexivity|]. apply N.mod_0_l. apply N.pow_nonzero. discriminate.
      + cbn [expressible]. splits; assumption.
    - exists (LTimestamp (epoch_seconds t)). splits; [|reflexivity|constructor; assumption|exact I|discriminate].
      rewrite <- (app_nil_r (wbe 4 _)). apply (st_timestamp 0 _ 0); try assumption; try reflexivity; lia.
    - exists (LBit bs).
      assert (Hk : N.of_nat (N.to_nat ((m + 7) / 8)) = (m + 7) / 8) by apply N2Nat.id.
      assert (Hn : n < 2 ^ (8 * N.of_nat (N.to_nat ((m + 7) / 8)))).
      { eapply N.lt_le_trans; [exact H0|]. rewrite Hk. apply N.pow_le_mono_r; [discriminate|]. lia. }
      assert (Hl : length bs = N.to_nat ((m + 7) / 8)) by (subst bs; apply wbe_length).
      splits; [|exact I| |cbn [expressible]; split; [rewrite Hl; lia|assumption]|discriminate].
      + apply st_bit; [lia|]. rewrite Hl. exact Hk.
      + rewrite <- (wbe_val _ n Hn), <- H1. constructor.
    - exists (LEnum (Pack1 n)). splits; [constructor; assumption|exact I|apply lg_enum; left; reflexivity|exact I|discriminate].
    - exists (LEnum (Pack2 n)). splits; [constructor; assumption|exact I|apply lg_enum; right; left; reflexivity|exact I|discriminate].
    - exists (LBlob s). splits; [constructor; assumption|exact I|constructor|exact I|discriminate].
    - exists (LVarString s). splits; [constructor; assumption|exact I|constructor|assumption|discriminate].
    - exists (LString s). splits; [constructor; assumption|exact I|constructor|assumption|discriminate].
  Qed.

  (** ** Rows *)
  Notation means_row := (row_means fmt_f32 fmt_f64 esc).
  Lemma told_unsigned c d : told c d -> is_unsigned d = co_unsigned c.
  Proof. intros (_ & H & _). exact H. Qed.
  Lemma parts_read cols xs parts : row_parts fmt_f32 fmt_f64 esc cols xs parts ->
    exists cells, Forall2 cell_ok (map co_type cols) cells /\ map is_present cells = repeat true (length cols) /\
      map is_null cells = map holds_null xs /\ map cell_bytes cells = parts /\
      forall defs, Forall2 told cols defs -> means_row defs (map cell_value cells) xs.
  Proof.
    induction 1 as [|c cols xs ps _ (cells & F & P & Nl & B & M)|c cols x xs p ps W _ (cells & F & P & Nl & B & M)].
    - exists []. splits; [constructor|reflexivity|reflexivity|reflexivity|]. intros defs H; inversion H; constructor.
    - exists (CNull :: cells). cbn [map length repeat is_present is_null holds_null cell_bytes cell_value]. splits; [|f_equal; assumption|f_equal; assumption|f_equal; assumption|].
      + constructor; [exact I|exact F].
      + intros defs H. inversion H; subst. apply rm_cons; [apply lg_null|exact I|]. apply M; assumption.
    - destruct (written_read _ _ _ _ W) as (v & S & D & L & X & Nn). exists (CVal v p :: cells).
      cbn [map length repeat is_present is_null cell_bytes cell_value]. splits; [|f_equal; assumption| |f_equal; assumption|].
      + constructor; [split; assumption|exact F].
      + rewrite Nl. f_equal. destruct x; try reflexivity. exfalso. apply Nn. inversion L; reflexivity.
      + intros defs H. inversion H as [|? d ? ? T]; subst. apply rm_cons; [rewrite (told_unsigned _ _ T); exact L|exact X|]. apply M; assumption.
  Qed.
  Lemma all_kept cells n : map is_present cells = repeat true n -> filter is_present cells = cells.
  Proof.
    revert n. induction cells as [|c cells IH]; intros [|n] H; try reflexivity; try discriminate H.
    cbn [map repeat filter] in *. injection H as E H. rewrite E. f_equal. eapply IH, H.
  Qed.
  Lemma row_read cols xs bs : row_written fmt_f32 fmt_f64 esc cols xs bs ->
    exists cells, row_image (map co_type cols) (repeat true (length cols)) cells bs /\
      forall defs, Forall2 told cols defs -> means_row defs (map cell_value cells) xs.
  Proof.
    intros (nulls & parts & R & B & ->). destruct (parts_read _ _ _ R) as (cells & F & P & Nl & E & M).
    exists cells. split; [|exact M]. split; [exact F|]. split; [exact P|]. exists nulls. rewrite (all_kept _ _ P), Nl, E. split; [exact B|reflexivity].
  Qed.
  Lemma rows_read cols rows images : Forall2 (row_written fmt_f32 fmt_f64 esc cols) rows images ->
    exists cellss, Forall2 (row_image (map co_type cols) (repeat true (length cols))) cellss images /\
      forall defs, Forall2 told cols defs -> Forall2 (means_row defs) (map (map cell_value) cellss) rows.
  Proof.
    induction 1 as [|xs bs rows images W _ (cs & F & M)]; [exists []; split; [constructor|intros; constructor]|].
    destruct (row_read _ _ _ W) as (cells & I & M1). exists (cells :: cs). split; [constructor; assumption|].
    intros defs H. cbn [map]. constructor; auto.
  Qed.
  Lemma pairs_read cols rows images :
    Forall2 (fun p bs => exists b a, row_written fmt_f32 fmt_f64 esc cols (fst p) b /\ row_written fmt_f32 fmt_f64 esc cols (snd p) a /\ bs = b ++ a) rows images ->
    exists cellss, Forall2 (fun p bs => exists b a, row_image (map co_type cols) (repeat true (length cols)) (fst p) b /\
        row_image (map co_type cols) (repeat true (length cols)) (snd p) a /\ bs = b ++ a) cellss images /\
      forall defs, Forall2 told cols defs ->
        Forall2 (fun v x => means_row defs (fst v) (fst x) /\ means_row defs (snd v) (snd x))
          (map (fun p => (map cell_value (fst p), map cell_value (snd p))) cellss) rows.
  Proof.
    induction 1 as [|p bs rows images (b & a & W1 & W2 & ->) _ (cs & F & M)]; [exists []; split; [constructor|intros; constructor]|].
    destruct (row_read _ _ _ W1) as (c1 & I1 & M1). destruct (row_read _ _ _ W2) as (c2 & I2 & M2). exists ((c1, c2) :: cs).
    split; [constructor; [exists b, a; auto|assumption]|]. intros defs H. cbn [map fst snd]. constructor; [cbn [fst snd]; auto|auto].
  Qed.

  (** ** Events *)
  Definition metas (t : declared) : list column_meta :=
    flat_map (fun ty => match type_desc ty with Some m => [m] | None => [] end) (dc_types t).
  Definition tm_of (t : declared) : table_map := mk_table_map (dc_db t) (dc_name t) (metas t) (dc_nulls t).
  Lemma metas_some t : declared_ok t -> map type_desc (dc_types t) = map Some (metas t).
  Proof.
    intros (_ & _ & _ & _ & _ & _ & _ & F & _). unfold metas. induction F as [|ty tys H F IH]; [reflexivity|].
    cbn [map flat_map]. rewrite map_app, IH. destruct ty; try contradiction; reflexivity.
  Qed.
  Lemma meta_short ty : (length (type_meta ty) <= 2)%nat.
  Proof. destruct ty; cbn [type_meta]; rewrite ?app_length, ?wle_length; cbn; lia. Qed.
  Lemma metas_short tys : (length (concat (map type_meta tys)) <= 2 * length tys)%nat.
  Proof. induction tys as [|ty tys IH]; [cbn; lia|]. cbn [map concat length]. rewrite app_length. pose proof (meta_short ty). lia. Qed.
  Lemma types_length t : length (dc_types t) = length (dc_cols t).
  Proof. apply map_length. Qed.
  Lemma map_read id flags t : id < 2 ^ 48 -> flags < 2 ^ 16 -> declared_ok t ->
    let data := wle 6 id ++ wle 2 flags ++ table_map_bytes (dc_db t) (dc_name t) (dc_types t) (dc_nulls t) in
    exists d, fst (read_table_map_data data) = Ok d /\ tmd_table_id d = id /\ table_map_of d = Ok (tm_of t).
  Proof.
    intros Hi Hf Hok data. pose proof (metas_some t Hok) as Hd. destruct Hok as (H0 & H1 & H2 & H3 & H4 & H5 & H6 & H7 & H8).
    exists (mk_tmd id flags (table_map_bytes (dc_db t) (dc_name t) (dc_types t) (dc_nulls t))).
    split; [unfold data; rewrite table_map_data_read by assumption; reflexivity|]. split; [reflexivity|].
    pose proof (metas_short (dc_types t)). rewrite types_length in H.
    assert (L1 : N.of_nat (length (dc_cols t)) < 2 ^ 32) by (eapply N.le_lt_trans; [exact H5|reflexivity]).
    assert (L2 : N.of_nat (length (concat (map type_meta (dc_types t)))) < 2 ^ 64) by (apply N.le_lt_trans with 8192; [lia|reflexivity]).
    apply table_map_decodes; rewrite ?types_length; assumption.
  Qed.

  (** what [means] makes of it *)
  Inductive stands : entry -> item -> Prop :=
  | s_map id t : declared_ok t -> stands (EMap id t) (IMap id (tm_of t))
  | s_insert id t rows rd pos r : rows_of rd (metas t) = Ok r -> dc_cols t <> [] ->
      SqlSpec.first_present (length (dc_cols t)) (length (dc_cols t)) (r_present_bitmap r) ->
      (forall defs, Forall2 told (dc_cols t) defs -> Forall2 (means_row defs) (r_rows r) rows) ->
      stands (EInsert id t rows) (IRows RInsert id rd pos)
  | s_delete id t rows rd pos r : rows_of rd (metas t) = Ok r ->
      SqlSpec.first_present (length (dc_cols t)) (length (dc_cols t)) (r_present_bitmap r) ->
      (forall defs, Forall2 told (dc_cols t) defs -> Forall2 (means_row defs) (r_rows r) rows) ->
      stands (EDelete id t rows) (IRows RDelete id rd pos)
  | s_update id t rows rd pos u : update_rows_of rd (metas t) = Ok u ->
      SqlSpec.first_present (length (dc_cols t)) (length (dc_cols t)) (u_before_present_bitmap u) ->
      SqlSpec.first_present (length (dc_cols t)) (length (dc_cols t)) (u_after_present_bitmap u) ->
      (forall defs, Forall2 told (dc_cols t) defs ->
         Forall2 (fun v x => means_row defs (fst v) (fst x) /\ means_row defs (snd v) (snd x)) (u_rows u) rows) ->
      stands (EUpdate id t rows) (IRows RUpdate id rd pos)
  | s_foreign c id rd pos : stands (EForeign id) (IRows c id rd pos)
  | s_rotate : stands ERotate IRotate
  | s_other : stands EOther IOther.

  Lemma present_first t pb : all_present t pb -> SqlSpec.first_present (length (dc_cols t)) (length (dc_cols t)) pb.
  Proof.
    intros (L & H). rewrite repeat_length in *. split.
    - rewrite L. pose proof (Nat.div_mod (length (dc_cols t) + 7) 8 ltac:(discriminate)). pose proof (Nat.mod_upper_bound (length (dc_cols t) + 7) 8 ltac:(discriminate)). lia.
    - intros i Hi. rewrite (H i Hi), (proj2 (Nat.ltb_lt _ _) Hi). rewrite (nth_indep _ false true) by (rewrite repeat_length; exact Hi). apply nth_repeat.
  Qed.

  Notation logs := (logs fmt_f32 fmt_f64 esc).
  Lemma some_true t : dc_cols t <> [] -> In true (repeat true (length (dc_cols t))).
  Proof. destruct (dc_cols t); [congruence|]. intros _. left. reflexivity. Qed.
  Lemma few t : declared_ok t -> N.of_nat (length (dc_types t)) < 2 ^ 32 - 7.
  Proof. intros (_ & _ & _ & _ & _ & H & _). rewrite types_length. eapply N.le_lt_trans; [exact H|reflexivity]. Qed.
  Lemma parsed_code sum e k h : kind_with_code (le_code e) = Some k -> header_for sum e = Some h -> parsed sum e = Some (mk_event k h (le_body e)).
  Proof. intros H1 H2. unfold parsed. rewrite H1, H2. reflexivity. Qed.
  Lemma header_some sum e : log_event_ok sum e -> exists h, header_for sum e = Some h.
  Proof.
    intros (_ & H & _). unfold header_for, type_with_code. destruct (nth_error event_types (N.to_nat (le_code e))) eqn:E; [eexists; reflexivity|].
    apply nth_error_None in E. cbn in E. lia.
  Qed.
  Lemma kind_in code k : kind_with_code code = Some k -> In (code, k) supported.
  Proof.
    unfold kind_with_code. destruct (find _ supported) as [[c k']|] eqn:E; [|discriminate]. intros H. injection H as <-.
    apply find_some in E. destruct E as [E1 E2]. cbn [fst] in E2. apply N.eqb_eq in E2. subst. exact E1.
  Qed.
  Lemma rows_means c h data id flags len pl : fst (rows_reader c data) = Ok (mk_rd2 id flags len pl) ->
    means (mk_event (rows_kind c) h data) (IRows c id (mk_rd2 id flags len pl) (h_next_pos h)).
  Proof. intros E. exact (means_rows c h data _ E). Qed.
  Lemma logs_means sum e en : log_event_ok sum e -> logs e en ->
    (parsed sum e = None /\ en = EOther) \/ (exists ev it, parsed sum e = Some ev /\ means ev it /\ stands en it).
  Proof.
    intros Hok H. destruct (header_some _ _ Hok) as (h & Hh).
    destruct H as [e id flags t C Hi Hf T B|e id flags extra t pb rows images C (F1 & F2 & F3) T P R B|e id flags extra t pb rows images C (F1 & F2 & F3) T P R B
      |e id flags extra t bb ab rows images C (F1 & F2 & F3) T Pb Pa R B|e id flags extra payload C (F1 & F2 & F3) B|e C|e C].
    - right. destruct (map_read id flags t Hi Hf T) as (d & E1 & E2 & E3).
      eexists _, (IMap id (tm_of t)). split; [eapply parsed_code; [rewrite C; reflexivity|exact Hh]|]. split; [|constructor; exact T].
      rewrite <- E2. apply means_map; [rewrite B; exact E1|exact E3].
    - right. destruct (rows_data_read id flags extra (rows_head extra (dc_types t) ++ pb ++ concat images) F1 F2 F3) as (R1 & _ & _).
      destruct (rows_read _ _ _ R) as (cs & I & M).
      eexists (mk_event (rows_kind RInsert) h (le_body e)), (IRows RInsert id _ (h_next_pos h)). split; [eapply parsed_code; [rewrite C; reflexivity|exact Hh]|].
      split; [apply rows_means; rewrite B; cbn [rows_reader]; rewrite R1; reflexivity|].
      eapply s_insert; [eapply (rows_decode (dc_types t) (metas t) (repeat true (length (dc_cols t))) pb cs images)|apply T| |].
      + apply metas_some, T.
      + exact P.
      + rewrite repeat_length, types_length. reflexivity.
      + apply few, T.
      + left. apply some_true, T.
      + exact I.
      + cbn [r_present_bitmap]. apply present_first, P.
      + exact M.
    - right. destruct (rows_data_read id flags extra (rows_head extra (dc_types t) ++ pb ++ concat images) F1 F2 F3) as (_ & _ & R1).
      destruct (rows_read _ _ _ R) as (cs & I & M).
      eexists (mk_event (rows_kind RDelete) h (le_body e)), (IRows RDelete id _ (h_next_pos h)). split; [eapply parsed_code; [rewrite C; reflexivity|exact Hh]|].
      split; [apply rows_means; rewrite B; cbn [rows_reader]; rewrite R1; reflexivity|].
      eapply s_delete; [eapply (rows_decode (dc_types t) (metas t) (repeat true (length (dc_cols t))) pb cs images)| |].
      + apply metas_some, T.
      + exact P.
      + rewrite repeat_length, types_length. reflexivity.
      + apply few, T.
      + left. apply some_true, T.
      + exact I.
      + cbn [r_present_bitmap]. apply present_first, P.
      + exact M.
    - right. destruct (rows_data_read id flags extra (rows_head extra (dc_types t) ++ bb ++ ab ++ concat images) F1 F2 F3) as (_ & R1 & _).
      destruct (pairs_read _ _ _ R) as (cs & I & M).
      eexists (mk_event (rows_kind RUpdate) h (le_body e)), (IRows RUpdate id _ (h_next_pos h)). split; [eapply parsed_code; [rewrite C; reflexivity|exact Hh]|].
      split; [apply rows_means; rewrite B; cbn [rows_reader]; rewrite R1; reflexivity|].
      eapply s_update; [eapply (update_rows_decode (dc_types t) (metas t) (repeat true (length (dc_cols t))) (repeat true (length (dc_cols t))) bb ab cs images)| | |].
      + apply metas_some, T.
      + exact Pb.
      + rewrite repeat_length, types_length. reflexivity.
      + exact Pa.
      + rewrite repeat_length, types_length. reflexivity.
      + apply few, T.
      + left. apply some_true, T.
      + exact I.
      + cbn [u_before_present_bitmap]. apply present_first, Pb.
      + cbn [u_after_present_bitmap]. apply present_first, Pa.
      + exact M.
    - right. destruct (rows_data_read id flags extra payload F1 F2 F3) as (R1 & R2 & R3).
      assert (X : exists c, kind_with_code (le_code e) = Some (rows_kind c) /\ fst (rows_reader c (le_body e)) = Ok (mk_rd2 id flags (N.of_nat (length extra) + 2) payload)).
      { rewrite B. destruct C as [C|[C|[C|[]]]]; rewrite <- C; [exists RInsert|exists RUpdate|exists RDelete]; cbn [rows_reader]; (split; [reflexivity|]);
          [rewrite R1|rewrite R2|rewrite R3]; reflexivity. }
      destruct X as (c & K & E). eexists (mk_event (rows_kind c) h (le_body e)), (IRows c id _ (h_next_pos h)). split; [eapply parsed_code; [exact K|exact Hh]|].
      split; [apply rows_means; exact E|constructor].
    - right. eexists _, IRotate. split; [eapply parsed_code; [rewrite C; reflexivity|exact Hh]|]. split; constructor.
    - destruct (kind_with_code (le_code e)) as [k|] eqn:K; [right|left; split; [unfold parsed; rewrite K; reflexivity|reflexivity]].
      eexists _, IOther. split; [eapply parsed_code; [exact K|exact Hh]|]. split; [|constructor]. apply means_other. intros Hk. apply C.
      apply kind_in in K. destruct (le_code e) as [|c]; cbn in K |- *.
      + repeat (destruct K as [K|K]; [discriminate K|]). contradiction.
      + repeat (destruct K as [K|K]; [injection K as Kc Kk; subst c k; cbn in Hk |- *; try (exfalso; repeat (destruct Hk as [Hk|Hk]; [discriminate Hk|]); exact Hk); auto 6|]). contradiction.
  Qed.

  (** ** Logs *)
  Inductive stands_all : list entry -> list item -> Prop :=
  | sa_nil : stands_all [] []
  | sa_cons e it es its : stands e it -> stands_all es its -> stands_all (e :: es) (it :: its)
  | sa_drop es its : stands_all es its -> stands_all (EOther :: es) its.
  Lemma log_stands sum es entries : Forall (log_event_ok sum) es -> Forall2 logs es entries ->
    exists items, Forall2 means (reported sum es) items /\ stands_all entries items.
  Proof.
    intros Ho F. induction F as [|e en es entries L F IH]; [exists []; split; constructor|].
    inversion Ho as [|? ? O1 O2]; subst. destruct (IH O2) as (items & M & S). cbn [reported].
    destruct (logs_means sum e en O1 L) as [(P & ->)|(ev & it & P & Mi & Si)]; rewrite P.
    - exists items. split; [exact M|]. apply sa_drop, S.
    - exists (it :: items). split; constructor; assumption.
  Qed.
  Lemma within_stands b es its : stands_all es its -> stands_all (within b es) (scope b its).
  Proof.
    induction 1 as [|e it es its S _ IH|es its _ IH]; [constructor| |cbn [within]; apply sa_drop, IH].
    destruct S; cbn [within scope]; try (apply sa_cons; [econstructor; eassumption|exact IH]).
    destruct b; [apply sa_cons; [constructor|exact IH]|constructor].
  Qed.
  Lemma mapped_latest rs rits : stands_all rs rits -> forall id, latest rits id = option_map tm_of (mapped rs id).
  Proof.
    induction 1 as [|e it es its S _ IH|es its _ IH]; intros i; [reflexivity| |exact (IH i)].
    destruct S; cbn [latest mapped]; try exact (IH i); try reflexivity. destruct (id =? i); [reflexivity|exact (IH i)].
  Qed.
  Lemma stable_consistent es its : stands_all es its -> forall rs rits, stands_all rs rits -> stable rs es -> consistent rits its.
  Proof.
    induction 1 as [|e it es its S _ IH|es its _ IH]; intros rs rits R H; [exact I| |].
    - destruct H as [H1 H2]. cbn [consistent]. split; [|eapply IH; [apply sa_cons; eassumption|exact H2]].
      destruct S; try exact I. rewrite (mapped_latest _ _ R). destruct (mapped rs id) as [t'|] eqn:E; [|exact I]. cbn [option_map]. rewrite (H1 t' eq_refl). reflexivity.
    - destruct H as [_ H2]. eapply IH; [|exact H2]. apply sa_drop, R.
  Qed.
  Variable passes : table_map -> bool.
  Variable chosen : declared -> bool.
  Variable defs_of : bytes -> bytes -> list column_def.
  Hypothesis Hpass : forall t, passes (tm_of t) = chosen t.
  Lemma first_lookups es its : stands_all es its -> forall rs rits, stands_all rs rits ->
    lookups passes latest rits its = map tm_of (first_mapped chosen rs es).
  Proof.
    induction 1 as [|e it es its S _ IH|es its _ IH]; intros rs rits R; [reflexivity| |].
    - cbn [lookups first_mapped]. rewrite (IH (e :: rs) (it :: rits)) by (apply sa_cons; assumption). rewrite map_app. f_equal.
      destruct S; try reflexivity. rewrite (mapped_latest _ _ R). destruct (mapped rs id); [reflexivity|]. cbn [option_map]. rewrite Hpass.
      destruct (chosen t); reflexivity.
    - cbn [first_mapped app]. apply IH. apply sa_drop, R.
  Qed.
  Lemma first_declared es its : stands_all es its -> forall rs, Forall declared_ok (first_mapped chosen rs es).
  Proof.
    induction 1 as [|e it es its S _ IH|es its _ IH]; intros rs; cbn [first_mapped]; [constructor| |apply IH].
    apply Forall_app. split; [|apply IH]. destruct S; try apply Forall_nil. destruct (mapped rs id); [constructor|]. destruct (chosen t); [constructor; [assumption|constructor]|constructor].
  Qed.
  Lemma mapped_in rs : forall id t, mapped rs id = Some t -> In (EMap id t) rs.
  Proof.
    induction rs as [|e rs IH]; intros id t H; [discriminate|]. destruct e; cbn [mapped] in H; try (right; apply IH; exact H); try discriminate.
    destruct (N.eqb_spec id0 id) as [->|]; [injection H as ->; left; reflexivity|right; apply IH; exact H].
  Qed.
  Lemma told_keys cols defs : Forall2 told cols defs -> map is_key defs = map of_key cols /\ map cd_name defs = map co_name cols /\
    existsb keyed defs = existsb (fun c => co_primary c && co_unique c) cols.
  Proof.
    induction 1 as [|c d cols defs (T1 & T2 & T3 & T4) _ (E1 & E2 & E3)]; [auto|]. cbn [map existsb]. unfold is_key at 1, of_key at 1, keyed at 1.
    rewrite E1, E2, E3, T1, T3, T4. auto.
  Qed.
  Lemma exists_key defs cols : map is_key defs = map of_key cols -> existsb is_key defs = existsb of_key cols.
  Proof. revert cols. induction defs as [|d defs IH]; intros [|c cols] H; try discriminate H; [reflexivity|]. cbn [map existsb] in *. injection H as -> H. rewrite (IH _ H). reflexivity. Qed.
  Lemma told_describes t defs : plain_names t -> Forall2 told (dc_cols t) defs -> describes defs (dc_schema t).
  Proof.
    intros (_ & _ & N & P) T. destruct (told_keys _ _ T) as (_ & E & _). split; [|split].
    - rewrite E. unfold dc_schema. rewrite map_map. reflexivity.
    - rewrite E. exact N.
    - clear - P T. induction T as [|c d cols defs (T1 & _) _ IH]; [constructor|]. inversion P; subst. constructor; [rewrite T1; assumption|auto].
  Qed.
  Lemma change_says e id t it rs : changes_rows_of e = Some (id, t) -> stands e it -> replayable e t ->
    Forall2 told (dc_cols t) (defs_of (dc_db t) (dc_name t)) ->
    rs = changes_of e -> exists c rd pos, it = IRows c id rd pos /\ says fmt_f32 fmt_f64 esc defs_of (tm_of t) c rd rs.
  Proof.
    intros C S R T ->. destruct (told_keys _ _ T) as (K1 & _ & K3). destruct S; try discriminate C; injection C as -> ->.
    - eexists RInsert, rd, pos. split; [reflexivity|]. split; [|exists r; split; [assumption|]].
      + cbn [tm_of tm_schema_name tm_table_name]. intros E. rewrite E in T. inversion T. congruence.
      + cbn [tm_of tm_schema_name tm_table_name changes_of]. rewrite (Forall2_len _ _ _ T) in H1. apply si; [exact H1|]. apply H2, T.
    - eexists RDelete, rd, pos. split; [reflexivity|]. split; [|exists r; split; [assumption|]].
      + cbn [tm_of tm_schema_name tm_table_name replayable] in *. rewrite (exists_key _ _ K1). exact R.
      + cbn [tm_of tm_schema_name tm_table_name changes_of]. rewrite (Forall2_len _ _ _ T) in H0. apply sd; [exact H0|]. apply H1, T.
    - eexists RUpdate, rd, pos. split; [reflexivity|]. split; [|exists u; split; [assumption|]].
      + cbn [tm_of tm_schema_name tm_table_name replayable] in *. rewrite K3. exact R.
      + cbn [tm_of tm_schema_name tm_table_name changes_of]. rewrite (Forall2_len _ _ _ T) in H0, H1. apply su; [exact H0|exact H1|]. apply H2, T.
  Qed.
  Lemma history_logged rs es d d' : server_history chosen rs es d d' -> forall rits its, stands_all rs rits -> stands_all es its ->
    (forall id t, In (EMap id t) (rs ++ es) -> chosen t = true -> Forall2 told (dc_cols t) (defs_of (dc_db t) (dc_name t))) ->
    logged_history fmt_f32 fmt_f64 esc passes defs_of rits its d d'.
  Proof.
    assert (Shift : forall (e : entry) rs es, (forall id t, In (EMap id t) (rs ++ e :: es) -> chosen t = true -> Forall2 told (dc_cols t) (defs_of (dc_db t) (dc_name t))) ->
      forall id t, In (EMap id t) ((e :: rs) ++ es) -> chosen t = true -> Forall2 told (dc_cols t) (defs_of (dc_db t) (dc_name t))).
    { intros e rs0 es0 H id t I. apply (H id). rewrite in_app_iff in *. cbn [In] in *. tauto. }
    induction 1 as [rs d|rs e es id t d1 rows rows' d2 d' C M Ch Rp Pn F Hi _ IH|rs id es d d' M _ IH|rs id t es d d' _ IH|rs es d d' _ IH|rs es d d' _ IH];
      intros rits its R S T.
    - inversion S; subst. apply lh_nil.
    - inversion S as [|? it ? its' S1 S2|]; subst; [|discriminate C].
      assert (Tt : Forall2 told (dc_cols t) (defs_of (dc_db t) (dc_name t))).
      { apply (T id); [apply in_or_app; left; apply mapped_in; exact M|exact Ch]. }
      destruct (change_says e id t it _ C S1 Rp Tt eq_refl) as (c & rd & pos & -> & Sy).
      apply (lh_rows _ _ _ _ _ rits c id rd pos its' (tm_of t) (changes_of e) d1 (dc_schema t) rows rows' d2 d').
      + rewrite (mapped_latest _ _ R), M. reflexivity.
      + rewrite Hpass. exact Ch.
      + exact Sy.
      + apply Pn.
      + apply Pn.
      + apply told_describes; assumption.
      + exact F.
      + cbn [tm_of tm_schema_name tm_table_name]. unfold sound. rewrite (proj1 (told_keys _ _ Tt)). exact Hi.
      + apply IH; [apply sa_cons; assumption|exact S2|]. apply Shift, T.
    - inversion S as [|? it ? its' S1 S2|]; subst. inversion S1; subst. apply lh_left_out.
      + rewrite (mapped_latest _ _ R). destruct (mapped rs id); [|exact I]. cbn [option_map]. rewrite Hpass. exact M.
      + apply IH; [apply sa_cons; assumption|exact S2|]. apply Shift, T.
    - inversion S as [|? it ? its' S1 S2|]; subst. inversion S1; subst. apply lh_other; [discriminate|]. apply IH; [apply sa_cons; assumption|exact S2|]. apply Shift, T.
    - inversion S as [|? it ? its' S1 S2|]; subst. inversion S1; subst. apply lh_other; [discriminate|]. apply IH; [apply sa_cons; assumption|exact S2|]. apply Shift, T.
    - inversion S as [|? it ? its' S1 S2|? its' S2]; subst.
      + inversion S1; subst. apply lh_other; [discriminate|]. apply IH; [apply sa_cons; assumption|exact S2|]. apply Shift, T.
      + apply IH; [apply sa_drop; assumption|exact S2|]. apply Shift, T.
  Qed.

  Lemma names_told l : Forall declared_ok l -> Forall (fun t => no_nul (dc_name t)) l -> Forall names_ok (map tm_of l).
  Proof.
    induction 1 as [|t l H _ IH]; intros N; [constructor|]. inversion N as [|? ? N1 N2]; subst. cbn [map]. constructor; [|auto].
    destruct H as (_ & X1 & X2 & _). unfold EventBodies.short in *.
    change (2 ^ 8) with 256 in *. split; [assumption|].
    cbn [tm_of tm_schema_name tm_table_name].
    clear - X1 X2. split; lia.
  Qed.
  (** everything the program needs to know about a log *)
  Lemma server_side sum b es entries before after : Forall (log_event_ok sum) es -> Forall2 logs es entries ->
    stable [] (within b entries) -> server_history chosen [] (within b entries) before after -> unaltered chosen defs_of (within b entries) ->
    Forall (fun t => no_nul (dc_name t)) (first_mapped chosen [] (within b entries)) ->
    exists items stmts, Forall2 means (reported sum es) items /\ stands_all entries items /\ consistent [] (scope b items) /\
      printed fmt_f32 fmt_f64 passes defs_of latest [] (scope b items) = Ok (map LStmt stmts) /\ run_script esc before stmts = Some after /\
      lookups passes latest [] (scope b items) = map tm_of (first_mapped chosen [] (within b entries)) /\
      Forall names_ok (lookups passes latest [] (scope b items)).
  Proof.
    intros Ho F St H U N. destruct (log_stands sum es entries Ho F) as (items & M & S). pose proof (within_stands b _ _ S) as W.
    destruct (log_replayed fmt_f32 fmt_f64 esc passes defs_of _ _ _ _ (history_logged _ _ _ _ H [] (scope b items) sa_nil W U)) as (stmts & P & R).
    exists items, stmts. pose proof (first_lookups _ _ W [] [] sa_nil) as L.
    splits; try assumption; [exact (stable_consistent _ _ W [] [] sa_nil St)|]. rewrite L. apply names_told; [|exact N]. exact (first_declared _ _ W []).
  Qed.

  Lemma answers_map cap l answers : Forall2 (fun t ms => table_answer cap (defs_of (dc_db t) (dc_name t)) ms) l answers ->
    Forall2 (fun tm ms => table_answer cap (defs_of (tm_schema_name tm) (tm_table_name tm)) ms) (map tm_of l) answers.
  Proof. induction 1; constructor; assumption. Qed.
  Lemma within_all b entries : (In ERotate entries -> b = true) -> within b entries = entries.
  Proof.
    induction entries as [|e es IH]; intros H; [reflexivity|]. assert (IH' : within b es = es) by (apply IH; intros X; apply H; right; exact X).
    destruct e; cbn [within]; rewrite ?IH'; try reflexivity. rewrite (H (or_introl eq_refl)). reflexivity.
  Qed.
  Lemma stands_app a b c d : stands_all a b -> stands_all c d -> stands_all (a ++ c) (b ++ d).
  Proof. induction 1; intros H'; cbn [app]; [exact H'|apply sa_cons; auto|apply sa_drop; auto]. Qed.
  Lemma stands_rev a b : stands_all a b -> stands_all (rev a) (rev b).
  Proof.
    induction 1; cbn [rev]; [constructor|apply stands_app; [assumption|apply sa_cons; [assumption|constructor]]|].
    rewrite <- (app_nil_r (rev its)). apply stands_app; [assumption|apply sa_drop; constructor].
  Qed.
  Lemma stands_rotate a b : stands_all a b -> In IRotate b -> In ERotate a.
  Proof.
    induction 1 as [|e it es its S _ IH|es its _ IH]; intros H; [destruct H| |right; auto].
    destruct H as [->|H]; [inversion S; left; reflexivity|right; auto].
  Qed.
  Lemma map_stops id flags db name pre ty post nulls r : id < 2 ^ 48 -> flags < 2 ^ 16 -> short db -> short name ->
    utf8_valid db = true -> utf8_valid name = true -> N.of_nat (length (pre ++ ty :: post)) <= 4096 ->
    length nulls = ((length (pre ++ ty :: post) + 7) / 8)%nat ->
    Forall sql_type_ok pre -> Forall (fun ty => match ty with SSet _ | SJson => False | _ => True end) pre -> unsupported ty r ->
    exists d, fst (read_table_map_data (wle 6 id ++ wle 2 flags ++ table_map_bytes db name (pre ++ ty :: post) nulls)) = Ok d /\ tmd_table_id d = id /\
      failure (table_map_of d) r.
  Proof.
    intros Hi Hf H1 H2 H3 H4 H5 H6 H7 H8 Hu. exists (mk_tmd id flags (table_map_bytes db name (pre ++ ty :: post) nulls)).
    split; [rewrite table_map_data_read by assumption; reflexivity|]. split; [reflexivity|].
    assert (M : exists ms, map type_desc pre = map Some ms).
    { clear - H8. induction H8 as [|x l X _ (ms & IH)]; [exists []; reflexivity|]. destruct x; try contradiction; eexists (_ :: ms); cbn [map]; rewrite IH; reflexivity. }
    destruct M as (ms & M). pose proof (metas_short (pre ++ ty :: post)) as L.
    assert (L1 : N.of_nat (length (pre ++ ty :: post)) < 2 ^ 32) by (eapply N.le_lt_trans; [exact H5|reflexivity]).
    assert (L2 : N.of_nat (length (concat (map type_meta (pre ++ ty :: post)))) < 2 ^ 64) by (apply N.le_lt_trans with 8192; [lia|reflexivity]).
    destruct ty; try contradiction; cbn [unsupported] in Hu; subst r.
    - rewrite (table_map_stop id flags db name pre (SSet pack) post ms nulls (Panic PUnimplemented)) by first [assumption|exact (set_stop pack)|discriminate]. reflexivity.
    - rewrite (table_map_stop id flags db name pre SJson post ms nulls (Err EConstraint)) by first [assumption|exact json_stop|discriminate]. reflexivity.
  Qed.
End Values.
