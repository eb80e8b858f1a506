(** * What stops a release build in a stored value or a row event: proofs *)
From Coq Require Import Lia.
From Verif Require Import Model.Base Model.BytesParser Model.LenEnc Model.Utf8 Model.Flags Model.Bitmap Model.Cmd Model.Time Model.Decimal Model.Col
  Model.Row Model.Rows Model.Event Model.EventBody Model.Release
  Spec.Nums Spec.Codec Spec.Wire Spec.LenEncSpec Spec.BitmapSpec Spec.DecimalSpec Spec.BinlogValues Spec.Decoders Spec.Accepts Spec.AcceptsRowEvents Spec.Catalogue Spec.Panics
  Spec.ReleaseAccepts Spec.ReleaseValues Spec.ReleasePanics
  Proofs.BaseLemmas Proofs.BytesParserProofs Proofs.CodecProofs Proofs.LenEncProofs Proofs.WireLemmas Proofs.PacketProofs Proofs.BitmapProofs
  Proofs.ReleaseProofs Proofs.ReleaseAccepts Proofs.ReleaseValues
  Proofs.RowsProofs Proofs.LocalProofs Proofs.TotalProofs Proofs.PanicProofs Proofs.EventPanicProofs Proofs.ExactPanicProofs.
Open Scope N_scope.

(** ** Values *)
Lemma np_f64_rel : no_panic read_le_f64_rel.
Proof. intros bs. unfold read_le_f64_rel. destruct (length bs <? 8)%nat eqn:E; [right; eexists; reflexivity|]. apply no_panic_at. pt. Qed.
Lemma np_time_rel f : no_panic (time_from_binlog_rel f).
Proof. intros bs. rewrite time_rel_same. apply np_time_binlog. Qed.
Lemma np_datetime_rel f : no_panic (datetime_from_binlog_rel f).
Proof. unfold datetime_from_binlog_rel, packed_from_datetime_binary_rel. pt. Qed.
Lemma decimal_rel_eq intg frac b0 bs0 (neg := negb (N.testbit (b2n b0) 7)) bs : bs = b0 :: bs0 ->
  read_decimal_rel intg frac bs =
  (' (a, b, c) <- dec_head intg frac neg ;;
   d <- (if 0 <? frac mod 9
         then f <- read_extra_fragment false (N.of_nat (dig_bytes (frac mod 9))) neg ;; pret [wmul 32 f (10 ^ (9 - frac mod 9))]
         else pret []) ;;
   pret (mk_dec intg frac neg (a ++ b ++ c ++ d))) bs.
Proof.
  intros ->. unfold read_decimal_rel. cbv zeta. rewrite !mod9_sub.
  pose proof (N.mod_upper_bound intg 9 ltac:(discriminate)) as U1. pose proof (N.mod_upper_bound frac 9 ltac:(discriminate)) as U2.
  rewrite !dig_table by assumption. unfold DIG_PER_DEC1. rewrite pow_table by lia.
  unfold dec_head, pbind, plift. cbv beta iota. rewrite sign_bit. fold neg.
  match goal with |- (let (r, rest) := ?x in _) = _ => destruct x as [[a|e|w|] rest1]; try reflexivity end.
  destruct (prepeat _ _ rest1) as [[b|e|w|] rest2]; try reflexivity.
  destruct (prepeat _ _ rest2) as [[c|e|w|] rest3]; try reflexivity.
Qed.
Lemma np_fixed {A} k (p : parser A) : fixed k p -> no_panic p.
Proof.
  intros [F1 F2] bs. destruct (cut k bs) as [C|(h & r & -> & C)].
  - destruct (F2 _ C) as (e & r & E). right. exists e. rewrite E. reflexivity.
  - destruct (F1 h r C) as [a E]. left. exists a. rewrite E. reflexivity.
Qed.
Lemma np_decimal_rel intg frac : no_panic (read_decimal_rel intg frac).
Proof.
  intros [|b0 bs0].
  - unfold read_decimal_rel. cbv zeta. rewrite !mod9_sub. rewrite !dig_table by (apply N.mod_upper_bound; discriminate). left. eexists. reflexivity.
  - rewrite (decimal_rel_eq _ _ b0 bs0 _ eq_refl). apply no_panic_at. apply no_panic_bind; [eapply np_fixed; apply fixed_head|]. intros [[a b] c].
    apply no_panic_bind; [|intros; pt]. destruct (N.ltb_spec 0 (frac mod 9)) as [P|P]; [|pt].
    pose proof (N.mod_upper_bound frac 9 ltac:(discriminate)) as U. apply no_panic_bind; [|intros; pt].
    eapply np_fixed. apply fixed_extra. apply dig_range. lia.
Qed.
Theorem value_rel_exact m bs : panics_exactly (fst (read_binlog_value_rel m bs)) (release_value_panics m).
Proof.
  destruct m; cbn [read_binlog_value_rel];
    try (apply exact_free; [intros w Hw; inversion Hw|]; solve
      [ apply np_binlog_plain; exact I
      | apply no_panic_at; apply no_panic_map; first [apply np_f64_rel|apply np_time_rel|apply np_datetime_rel|apply np_decimal_rel|pt]
      | apply no_panic_at; pt ]); cbn [read_binlog_value].
  - apply exact_of; [intros w Hw; inversion Hw; reflexivity|]. right. eexists. constructor.
  - assert (forall n, ~ 1 <= n <= 4 -> match n with 1 => read_u8 | 2 => read_le_u16 | 3 => read_le_u24 | 4 => read_le_u32 | _ => ppanic PUnreachable end = ppanic PUnreachable) as B.
    { clear. intros n H. destruct n as [|[p|[p|p|]|]]; try reflexivity; try lia; destruct p; try reflexivity; lia. }
    apply exact_of.
    + intros w Hw. inversion Hw; subst. rewrite B by assumption. reflexivity.
    + assert (1 <= pack_len <= 4 \/ ~ 1 <= pack_len <= 4) as [D|D] by lia.
      * assert (pack_len = 1 \/ pack_len = 2 \/ pack_len = 3 \/ pack_len = 4) as [->|[->|[->| ->]]] by lia; left; apply no_panic_at; pt.
      * right. exists PUnreachable. constructor. exact D.
  - apply exact_of; [intros w Hw; inversion Hw; reflexivity|]. right. eexists. constructor.
Qed.

(** ** Row images *)
Definition value_rel_read (m : column_meta) (bs mid : bytes) : Prop := exists v, read_binlog_value_rel m bs = (Ok v, mid).
Lemma value_rel_reads m bs mid : value_rel_read m bs mid <-> exists v w, bs = w ++ mid /\ release_value_layout m v w mid.
Proof. split; [intros [v E]; apply accepts_value_rel in E; eauto|intros (v & w & E & L); exists v; apply accepts_value_rel; eauto]. Qed.
Lemma rel_columns_le value metas i bs j rest : release_columns_read value metas i bs j rest -> (i <= j)%nat.
Proof. induction 1; lia. Qed.
Lemma rel_columns_short value metas i bs j rest : release_columns_read value metas i bs j rest -> (length rest <= length bs)%nat.
Proof. induction 1; rewrite ?app_length; lia. Qed.
Lemma rel_columns_step value metas i bs j rest : (i < j)%nat -> release_columns_read value metas i bs j rest <->
  if value i then exists m v mid, nth_error metas i = Some m /\ read_binlog_value_rel m bs = (Ok v, mid) /\ release_columns_read value metas (S i) mid j rest
  else release_columns_read value metas (S i) bs j rest.
Proof.
  intros L. split.
  - intros H. inversion H; subst; [lia| |]; match goal with E : value i = _ |- _ => rewrite E end; [assumption|].
    match goal with E : release_value_layout ?m ?v ?w ?mid |- _ => exists m, v, mid; split; [assumption|]; split; [|assumption]; apply accepts_value_rel; exists w; auto end.
  - destruct (value i) eqn:E; [intros (m & v & mid & E1 & E2 & H)|intros H; apply rcr_left_out; assumption].
    apply accepts_value_rel in E2. destruct E2 as (w & -> & E2). eapply rcr_value; eassumption.
Qed.
Lemma rel_columns_none value metas i bs rest : release_columns_read value metas i bs i rest <-> rest = bs.
Proof.
  split; [|intros ->; constructor]. intros H. inversion H; subst; [reflexivity| |]; match goal with K : release_columns_read _ _ (S _) _ _ _ |- _ => apply rel_columns_le in K; lia end.
Qed.
Definition rel_column_fatal (metas : list column_meta) (i : nat) (rest : bytes) (w : panic) : Prop :=
  match nth_error metas i with Some m => release_value_panics m w | None => w = PIndex end.
Lemma rel_log_cols_reads value metas cb : forall n i, (i + n <= 8 * length cb)%nat -> (forall k, (i <= k < i + n)%nat -> bit cb k = value k) ->
  reads (read_log_cols_rel n i cb metas) (fun bs rest => release_columns_read value metas i bs (i + n) rest).
Proof.
  induction n as [|n IH]; intros i L Hv bs rest.
  - rewrite Nat.add_0_r. rewrite rel_columns_none. cbn [read_log_cols_rel]. split; [intros [v E]; injection E as _ <-; reflexivity|intros ->; eexists; reflexivity].
  - rewrite rel_columns_step by lia. cbn [read_log_cols_rel]. rewrite bm_index_spec by lia. rewrite Hv by lia. erewrite pbind_ok by reflexivity.
    assert (forall k, (S i <= k < S i + n)%nat -> bit cb k = value k) as Hv' by (intros k Hk; apply Hv; lia).
    specialize (IH (S i) ltac:(lia) Hv'). replace (i + S n)%nat with (S i + n)%nat by lia. destruct (value i).
    + split.
      * intros [v E]. destruct (nth_error metas i) as [m|] eqn:Em; [|discriminate]. apply pbind_inv in E. destruct E as (x & mid & E1 & E). apply pbind_inv in E. destruct E as (xs & mid2 & E2 & E).
        injection E as _ <-. exists m, x, mid. split; [reflexivity|]. split; [exact E1|]. apply IH. eauto.
      * intros (m & v & mid & -> & E1 & H). apply IH in H. destruct H as [vs E2]. eexists. erewrite pbind_ok by exact E1. erewrite pbind_ok by exact E2. reflexivity.
    + eapply iff_trans; [|exact (IH bs rest)]. split.
      * intros [v E]. apply pbind_inv in E. destruct E as (x & mid & E1 & E). injection E1 as _ <-. apply pbind_inv in E. destruct E as (xs & mid2 & E2 & E). injection E as _ <-. eauto.
      * intros [vs E]. eexists. erewrite pbind_ok by reflexivity. erewrite pbind_ok by exact E. reflexivity.
Qed.
Definition rel_columns_panic (value : nat -> bool) (metas : list column_meta) (i j : nat) (bs : bytes) (w : panic) : Prop :=
  exists k rest, release_columns_read value metas i bs k rest /\ (k < j)%nat /\ value k = true /\ rel_column_fatal metas k rest w.
Lemma rel_columns_panic_step value metas i j bs w : (i < j)%nat -> rel_columns_panic value metas i j bs w <->
  if value i then rel_column_fatal metas i bs w \/ exists m v mid, nth_error metas i = Some m /\ read_binlog_value_rel m bs = (Ok v, mid) /\ rel_columns_panic value metas (S i) j mid w
  else rel_columns_panic value metas (S i) j bs w.
Proof.
  intros L. split.
  - intros (k & rest & H & Lk & V & F). destruct (Nat.eq_dec k i) as [->|N].
    + apply rel_columns_none in H. subst rest. rewrite V. left. exact F.
    + pose proof (rel_columns_le _ _ _ _ _ _ H) as Lk'. rewrite rel_columns_step in H by lia. destruct (value i).
      * destruct H as (m & v & mid & E1 & E2 & H). right. exists m, v, mid. split; [exact E1|]. split; [exact E2|]. exists k, rest. auto.
      * exists k, rest. auto.
  - destruct (value i) eqn:E.
    + intros [F|(m & v & mid & E1 & E2 & k & rest & H & Lk & V & F)].
      * exists i, bs. split; [constructor|]. auto.
      * exists k, rest. split; [|auto]. apply accepts_value_rel in E2. destruct E2 as (w0 & -> & E2). eapply rcr_value; eassumption.
    + intros (k & rest & H & Lk & V & F). exists k, rest. split; [apply rcr_left_out; assumption|]. auto.
Qed.
Lemma rel_log_cols_exact value metas cb : forall n i, (i + n <= 8 * length cb)%nat -> (forall k, (i <= k < i + n)%nat -> bit cb k = value k) ->
  pan (read_log_cols_rel n i cb metas) (rel_columns_panic value metas i (i + n)).
Proof.
  induction n as [|n IH]; intros i L Hv.
  - eapply pan_iff; [|apply pan_free; cbn [read_log_cols_rel]; pt]. intros bs w. split; [|intros []]. intros (k & rest & H & Lk & _). apply rel_columns_le in H. lia.
  - eapply pan_iff; [intros bs w; apply rel_columns_panic_step; lia|]. cbn [read_log_cols_rel]. rewrite bm_index_spec by lia. rewrite Hv by lia. apply pan_ok.
    assert (forall k, (S i <= k < S i + n)%nat -> bit cb k = value k) as Hv' by (intros k Hk; apply Hv; lia).
    specialize (IH (S i) ltac:(lia) Hv'). replace (i + S n)%nat with (S i + n)%nat by lia. destruct (value i).
    + unfold rel_column_fatal. destruct (nth_error metas i) as [m|] eqn:Em.
      * eapply pan_iff; [|apply pan_bind; [exact (value_rel_exact m)|intros v; apply pan_then; [exact IH|intros; pt]]]. intros bs w. cbv beta. split.
        -- intros [H|(m' & v & mid & E & H)]; [left; exact H|]. injection E as <-. right. exists v, mid. exact H.
        -- intros [H|(v & mid & H)]; [left; exact H|right; exists m, v, mid; auto].
      * intros bs. unfold pbind, ppanic. cbn [fst]. split; [|discriminate]. intros w. split; [intros E; injection E as <-; left; reflexivity|intros [->|(m & _ & _ & E & _)]; [reflexivity|discriminate]].
    + exact (pan_then _ (fun vs => pret (LNull :: vs)) _ IH ltac:(intros; pt)).
Qed.
Lemma rel_row_image_parts n bm metas : n < 2 ^ 32 -> (N.to_nat n <= 8 * length bm)%nat -> forall bs,
  (exists nulls values cb, bs = nulls ++ values /\ length nulls = ((rank bm (N.to_nat n) + 7) / 8)%nat /\
     read_row_image_rel n bm (rank bm (N.to_nat n)) metas bs = read_log_cols_rel (N.to_nat n) 0 cb metas values /\
     (0 + N.to_nat n <= 8 * length cb)%nat /\ forall k, (0 <= k < 0 + N.to_nat n)%nat -> bit cb k = has_value bm nulls k) \/
  ((length bs < (rank bm (N.to_nat n) + 7) / 8)%nat /\ exists e, fst (read_row_image_rel n bm (rank bm (N.to_nat n)) metas bs) = Err e).
Proof.
  intros Hn L bs. set (c := rank bm (N.to_nat n)) in *. assert (N.to_nat (N.shiftr (N.of_nat c + 7) 3) = ((c + 7) / 8)%nat) as Q.
  { rewrite N.shiftr_div_pow2. change (2 ^ 3) with 8. rewrite N2Nat.inj_div, N2Nat.inj_add, Nat2N.id. reflexivity. }
  destruct (cut ((c + 7) / 8) bs) as [S|(nulls & values & -> & Ln)].
  - right. split; [exact S|]. unfold read_row_image_rel, pbind. destruct (read_len_cases (N.shiftr (N.of_nat c + 7) 3) bs) as [(a & r & -> & La & _)|[e E]].
    + exfalso. rewrite app_length in S. unfold blen in La. lia.
    + exists e. destruct (read_len (N.shiftr (N.of_nat c + 7) 3) bs) as [r x]. cbn [fst] in E. subst r. reflexivity.
  - left. destruct (mark_values n nulls bm L) as (cb & E1 & E2 & E3).
    { fold c. pose proof (Nat.div_mod (c + 7) 8 ltac:(lia)). pose proof (Nat.mod_upper_bound (c + 7) 8 ltac:(lia)). lia. }
    exists nulls, values, cb. split; [reflexivity|]. split; [exact Ln|]. split; [|split; [lia|intros k Hk; apply E3; lia]].
    unfold read_row_image_rel. erewrite pbind_ok by (apply rd_len; unfold blen; lia). fold c in E1. rewrite E1. erewrite pbind_ok by reflexivity.
    unfold read_log_row_rel. rewrite capacity_exact by lia. destruct (N.leb_spec (2 ^ 63) (40 * n)) as [X|X]; [exfalso|reflexivity].
    change (2 ^ 32) with 4294967296 in Hn. change (2 ^ 63) with 9223372036854775808 in X. lia.
Qed.
Lemma rel_image_reads n bm metas : n < 2 ^ 32 -> (N.to_nat n <= 8 * length bm)%nat ->
  reads (read_row_image_rel n bm (rank bm (N.to_nat n)) metas) (release_image_read n bm metas).
Proof.
  intros Hn L bs rest. destruct (rel_row_image_parts n bm metas Hn L bs) as [(nulls & values & cb & -> & Ln & E & Lc & Hv)|[S [e E]]].
  - rewrite E. eapply iff_trans; [exact (rel_log_cols_reads (has_value bm nulls) metas cb (N.to_nat n) 0 Lc Hv values rest)|]. cbn [Nat.add]. split.
    + intros H. exists nulls, values. auto.
    + intros (nulls' & values' & E2 & Ln' & H). apply app_inj_len in E2; [|congruence]. destruct E2 as [<- <-]. exact H.
  - split; [intros [v K]; rewrite K in E; discriminate|]. intros (nulls & values & -> & Ln & _). rewrite app_length in S. lia.
Qed.
Lemma rel_image_exact n bm metas : n < 2 ^ 32 -> (N.to_nat n <= 8 * length bm)%nat ->
  pan (read_row_image_rel n bm (rank bm (N.to_nat n)) metas) (release_image_panics n bm metas).
Proof.
  intros Hn L bs. destruct (rel_row_image_parts n bm metas Hn L bs) as [(nulls & values & cb & -> & Ln & E & Lc & Hv)|[S [e E]]].
  - rewrite E. eapply exactly_iff; [|exact (rel_log_cols_exact (has_value bm nulls) metas cb (N.to_nat n) 0 Lc Hv values)]. cbn [Nat.add]. intros w. split.
    + intros (nulls' & values' & i & rest & E2 & Ln' & H). apply app_inj_len in E2; [|congruence]. destruct E2 as [<- <-]. exists i, rest. exact H.
    + intros (i & rest & H). exists nulls, values, i, rest. auto.
  - apply exact_free; [|right; exists e; exact E]. intros w (nulls & values & i & rest & -> & Ln & _). rewrite app_length in S. lia.
Qed.
Lemma rel_image_consumes n bm metas : n < 2 ^ 32 -> (N.to_nat n <= 8 * length bm)%nat -> (0 < rank bm (N.to_nat n))%nat ->
  consumes (read_row_image_rel n bm (rank bm (N.to_nat n)) metas).
Proof.
  intros Hn L S bs v rest E. destruct (proj1 (rel_image_reads n bm metas Hn L bs rest) (ex_intro _ v E)) as (nulls & values & -> & Ln & H).
  apply rel_columns_short in H. rewrite app_length. lia.
Qed.
Lemma rel_image_short n bm metas : n < 2 ^ 32 -> (N.to_nat n <= 8 * length bm)%nat -> forall bs v rest,
  read_row_image_rel n bm (rank bm (N.to_nat n)) metas bs = (Ok v, rest) -> (length rest <= length bs)%nat.
Proof.
  intros Hn L bs v rest E. destruct (proj1 (rel_image_reads n bm metas Hn L bs rest) (ex_intro _ v E)) as (nulls & values & -> & Ln & H).
  apply rel_columns_short in H. rewrite app_length. lia.
Qed.
Lemma rel_none_image n bm metas bs : none_present n bm -> release_image_read n bm metas bs bs.
Proof.
  intros H. exists [], bs. split; [reflexivity|]. rewrite (rank_none _ _ H). split; [reflexivity|].
  assert (forall k i, (i + k = N.to_nat n)%nat -> release_columns_read (has_value bm []) metas i bs (N.to_nat n) bs) as K.
  { induction k as [|k IH]; intros i E; [rewrite Nat.add_0_r in E; subst i; constructor|]. apply rcr_left_out; [apply (none_value n); [exact H|lia]|]. apply IH. lia. }
  apply (K (N.to_nat n)). reflexivity.
Qed.
Lemma rel_none_quiet n bm metas bs w : none_present n bm -> ~ release_image_panics n bm metas bs w.
Proof. intros H (nulls & values & i & rest & _ & _ & _ & L & V & _). rewrite (none_value n) in V; [discriminate|exact H|exact L]. Qed.
Definition read_image_pair_rel (n : N) (bb ab : bytes) (c1 c2 : nat) (metas : list column_meta) : parser (list binlog_value * list binlog_value) :=
  before_row <- read_row_image_rel n bb c1 metas ;; after_row <- read_row_image_rel n ab c2 metas ;; pret (before_row, after_row).
Lemma rel_pair_reads n bb ab metas : n < 2 ^ 32 -> (N.to_nat n <= 8 * length bb)%nat -> (N.to_nat n <= 8 * length ab)%nat ->
  reads (read_image_pair_rel n bb ab (rank bb (N.to_nat n)) (rank ab (N.to_nat n)) metas) (release_pair_read n bb ab metas).
Proof.
  intros Hn L1 L2 bs rest. unfold read_image_pair_rel, release_pair_read. split.
  - intros [v E]. apply pbind_inv in E. destruct E as (x & mid & E1 & E). apply pbind_inv in E. destruct E as (y & mid2 & E2 & E). injection E as _ <-.
    exists mid. split; apply rel_image_reads; eauto.
  - intros (mid & H1 & H2). apply rel_image_reads in H1; [|assumption|assumption]. apply rel_image_reads in H2; [|assumption|assumption]. destruct H1 as [x E1], H2 as [y E2].
    eexists. erewrite pbind_ok by exact E1. erewrite pbind_ok by exact E2. reflexivity.
Qed.
Lemma rel_pair_exact n bb ab metas : n < 2 ^ 32 -> (N.to_nat n <= 8 * length bb)%nat -> (N.to_nat n <= 8 * length ab)%nat ->
  pan (read_image_pair_rel n bb ab (rank bb (N.to_nat n)) (rank ab (N.to_nat n)) metas) (release_pair_panics n bb ab metas).
Proof.
  intros Hn L1 L2. unfold read_image_pair_rel. eapply pan_iff.
  2:{ apply pan_bind; [apply rel_image_exact; assumption|]. intros x. apply pan_then; [apply rel_image_exact; assumption|intros; pt]. }
  intros bs w. unfold release_pair_panics. split; (intros [H|H]; [left; exact H|right]).
  - destruct H as (mid & H1 & H2). apply rel_image_reads in H1; [|assumption|assumption]. destruct H1 as [x E]. exists x, mid. auto.
  - destruct H as (x & mid & E & H). exists mid. split; [apply rel_image_reads; eauto|exact H].
Qed.
Lemma rel_pair_consumes n bb ab metas : n < 2 ^ 32 -> (N.to_nat n <= 8 * length bb)%nat -> (N.to_nat n <= 8 * length ab)%nat ->
  (0 < rank bb (N.to_nat n) + rank ab (N.to_nat n))%nat -> consumes (read_image_pair_rel n bb ab (rank bb (N.to_nat n)) (rank ab (N.to_nat n)) metas).
Proof.
  intros Hn L1 L2 S bs v rest E. unfold read_image_pair_rel in E. apply pbind_inv in E. destruct E as (x & mid & E1 & E). apply pbind_inv in E. destruct E as (y & mid2 & E2 & E). injection E as _ <-.
  pose proof (rel_image_short n bb metas Hn L1 _ _ _ E1). pose proof (rel_image_short n ab metas Hn L2 _ _ _ E2).
  destruct (Nat.eq_dec (rank bb (N.to_nat n)) 0) as [Z|Z].
  - apply rel_image_consumes in E2; try assumption; lia.
  - apply rel_image_consumes in E1; try assumption; lia.
Qed.
(** without a bitmap *)
Lemma bare_image n c metas bs : n < 2 ^ 32 -> too_many n -> c = 0%nat -> fst (read_row_image_rel n [] c metas bs) = Panic PIndex.
Proof.
  intros Hn H ->. unfold too_many in H. unfold read_row_image_rel. change (N.shiftr (N.of_nat 0 + 7) 3) with 0. erewrite pbind_ok by (apply (rd_len bs [] 0); reflexivity).
  cbn [mark_nulls]. erewrite pbind_ok by reflexivity. unfold read_log_row_rel. rewrite capacity_exact by lia. destruct (N.leb_spec (2 ^ 63) (40 * n)) as [X|X].
  { exfalso. change (2 ^ 32) with 4294967296 in Hn. change (2 ^ 63) with 9223372036854775808 in X. lia. }
  assert (exists m, N.to_nat n = S m) as [m ->] by (exists (Nat.pred (N.to_nat n)); change (2 ^ 32 - 7) with 4294967289 in H; lia). reflexivity.
Qed.
Lemma bare_while {A} (p : parser A) bs : (forall bs, fst (p bs) = Panic PIndex) ->
  (forall w, fst (while_remaining p bs) = Panic w <-> bs <> [] /\ w = PIndex) /\ fst (while_remaining p bs) <> Loop.
Proof.
  intros H. unfold while_remaining. destruct bs as [|b bs]; cbn [length pwhile].
  - split; [|discriminate]. intros w. split; [discriminate|intros [X _]; congruence].
  - unfold pbind. specialize (H (b :: bs)). destruct (p (b :: bs)) as [r x]. cbn [fst] in H. subst r. cbn [fst]. split; [|discriminate].
    intros w. split; [intros E; injection E as <-; split; [discriminate|reflexivity]|intros [_ ->]; reflexivity].
Qed.

(** ** Row events *)
Definition row_head_rel {A} (extra_len : N) (k : bytes -> N -> N -> parser A) : parser A :=
  extra <- read_len (rsub 64 extra_len 2) ;; ' (n, b) <- read_n_cols_rel ;; k extra n b.
Lemma n_cols_rel_fwd w v rest : dlenenc w = Some (v, []) -> read_n_cols_rel (w ++ rest) = (Ok (v mod 2 ^ 32, (v mod 2 ^ 32 + 7) mod 2 ^ 32 / 8), rest).
Proof.
  intros D. destruct (lenenc_fwd w v rest D) as (l & E & E64). unfold read_n_cols_rel. erewrite pbind_ok by exact E.
  assert (exists m, lei_to_u32 l = Some m) as [m E32] by (destruct l; try discriminate; eexists; reflexivity).
  destruct (lenenc_inv _ _ _ E v E64) as (w' & Ew & _ & M). specialize (M m E32). subst m. rewrite E32. unfold pbind, pret, wadd. rewrite N.shiftr_div_pow2. reflexivity.
Qed.
Lemma n_cols_rel_cases bs :
  (exists w v rest, bs = w ++ rest /\ dlenenc w = Some (v, [])) \/ (exists e, fst (read_n_cols_rel bs) = Err e).
Proof.
  unfold read_n_cols_rel, pbind. destruct (read_len_enc_int bs) as [r rest] eqn:E.
  assert (no_panic read_len_enc_int) as NP by pt. destruct (NP bs) as [[l Hl]|[e He]]; rewrite E in *; cbn [fst] in *; subst r; [|right; eexists; reflexivity].
  destruct (lei_to_u32 l) as [m|] eqn:E32; [|right; eexists; reflexivity].
  assert (exists n, lei_to_u64 l = Some n) as [n E64] by (destruct l; try discriminate; eexists; reflexivity).
  destruct (lenenc_inv _ _ _ E n E64) as (w & -> & D & M). left. eauto.
Qed.
Lemma head_rel_fwd {A} extra_len (k : bytes -> N -> N -> parser A) payload n rest : extra_len < 2 ^ 64 -> release_announces extra_len payload n rest ->
  n < 2 ^ 32 /\ exists extra, row_head_rel extra_len k payload = k extra n ((n + 7) mod 2 ^ 32 / 8) rest.
Proof.
  intros B (extra & w & v & L & -> & D & ->). split; [apply N.mod_lt; discriminate|]. exists extra. unfold row_head_rel.
  apply gives_rsub in L; [|exact B|reflexivity]. erewrite pbind_ok by (apply rd_len; unfold blen; symmetry; exact L). unfold pbind. rewrite (n_cols_rel_fwd _ _ _ D). reflexivity.
Qed.
Lemma head_rel_cases {A} extra_len (k : bytes -> N -> N -> parser A) payload : extra_len < 2 ^ 64 ->
  (exists n body, release_announces extra_len payload n body) \/ (exists e, fst (row_head_rel extra_len k payload) = Err e).
Proof.
  intros B. unfold row_head_rel. unfold pbind at 1. destruct (read_len_cases (rsub 64 extra_len 2) payload) as [(extra & r1 & -> & Le & ->)|[e E]].
  2:{ destruct (read_len (rsub 64 extra_len 2) payload) as [r x]. cbn [fst] in *. subst r. right. eexists. reflexivity. }
  unfold blen in Le. unfold pbind. destruct (n_cols_rel_cases r1) as [(w & v & r2 & -> & D)|[e E]].
  - left. exists (v mod 2 ^ 32), r2. exists extra, w, v. split; [apply gives_rsub; [exact B|reflexivity|exact Le]|auto].
  - right. destruct (read_n_cols_rel r1) as [r x]. cbn [fst] in *. subst r. eexists. reflexivity.
Qed.
Lemma event_rel_exact {A} extra_len (k : bytes -> N -> N -> parser A) (P : N -> bytes -> panic -> Prop) (E : N -> bytes -> Prop) payload : extra_len < 2 ^ 64 ->
  (forall extra n body, n < 2 ^ 32 -> (forall w, fst (k extra n ((n + 7) mod 2 ^ 32 / 8) body) = Panic w <-> P n body w) /\ (fst (k extra n ((n + 7) mod 2 ^ 32 / 8) body) = Loop <-> E n body)) ->
  (forall w, fst (row_head_rel extra_len k payload) = Panic w <-> exists n body, release_announces extra_len payload n body /\ P n body w) /\
  (fst (row_head_rel extra_len k payload) = Loop <-> exists n body, release_announces extra_len payload n body /\ E n body).
Proof.
  intros B H. split; [intros w|]; split.
  - intros K. destruct (head_rel_cases extra_len k payload B) as [(n & body & Q)|[e Q]]; [|rewrite Q in K; discriminate].
    exists n, body. split; [exact Q|]. destruct (head_rel_fwd extra_len k payload n body B Q) as (Hn & extra & Ek). rewrite Ek in K. apply (H extra n body Hn). exact K.
  - intros (n & body & Q & X). destruct (head_rel_fwd extra_len k payload n body B Q) as (Hn & extra & ->). apply (H extra n body Hn). exact X.
  - intros K. destruct (head_rel_cases extra_len k payload B) as [(n & body & Q)|[e Q]]; [|rewrite Q in K; discriminate].
    exists n, body. split; [exact Q|]. destruct (head_rel_fwd extra_len k payload n body B Q) as (Hn & extra & Ek). rewrite Ek in K. apply (H extra n body Hn). exact K.
  - intros (n & body & Q & X). destruct (head_rel_fwd extra_len k payload n body B Q) as (Hn & extra & ->). apply (H extra n body Hn). exact X.
Qed.
Lemma bitmap_width n : n < 2 ^ 32 -> (~ too_many n /\ (n + 7) mod 2 ^ 32 / 8 = (n + 7) / 8) \/ (too_many n /\ (n + 7) mod 2 ^ 32 / 8 = 0).
Proof.
  intros H. unfold too_many. change (2 ^ 32 - 7) with 4294967289. change (2 ^ 32) with 4294967296 in *. destruct (N.lt_ge_cases n 4294967289) as [L|L].
  - left. split; [lia|]. rewrite (N.mod_small (n + 7)) by lia. reflexivity.
  - right. split; [exact L|]. replace ((n + 7) mod 4294967296) with (n + 7 - 4294967296) by (apply (N.mod_unique _ _ 1); lia). apply N.div_small. lia.
Qed.
Lemma no_bits n : count_present n [] = Ok 0%nat.
Proof. unfold count_present. change (bm_to_iter [] 0) with (@Ok (list bool) []). cbn [rmap rbind]. rewrite firstn_nil. reflexivity. Qed.
Lemma take_none {A} (f : bytes -> parser A) body : pbind (read_len 0) f body = f [] body.
Proof. apply (pbind_ok (read_len 0) f body [] body). apply (rd_len body [] 0). reflexivity. Qed.
Theorem rows_rel_exact extra_len metas payload : extra_len < 2 ^ 64 ->
  (forall w, fst (read_rows_v2_rel extra_len metas payload) = Panic w <-> release_rows_panic extra_len metas payload w) /\
  (fst (read_rows_v2_rel extra_len metas payload) = Loop <-> release_rows_endless extra_len payload).
Proof.
  intros B. pose proof (event_rel_exact extra_len (fun extra n b => present <- read_len b ;; c <- plift (count_present n present) ;;
      rows <- while_remaining (read_row_image_rel n present c metas) ;; pret (mk_rows extra n present rows))
    (fun n body w => (too_many n /\ body <> [] /\ w = PIndex) \/ (~ too_many n /\ exists present rest, body = present ++ rest /\ bitmap_of n present /\
       images_panic (release_image_read n present metas) (release_image_panics n present metas) rest w))
    (fun n body => ~ too_many n /\ exists present rest, body = present ++ rest /\ bitmap_of n present /\ (none_present n present /\ rest <> [])) payload B) as X.
  match type of X with ?h -> _ => assert h as Hh end.
  { intros extra n body Hn'. assert (forall A B (a : A) (f : A -> parser B) b, pbind (plift (Ok a)) f b = f a b) as Pl by reflexivity.
    destruct (bitmap_width n Hn') as [[T ->]|[T ->]].
    - match goal with |- context [pbind (read_len ?k) ?f body] => destruct (len_tail k f
        (fun present rest w => images_panic (release_image_read n present metas) (release_image_panics n present metas) rest w)
        (fun present rest => none_present n present /\ rest <> []) body) as [Y1 Y2] end.
      + intros present rest L. pose proof (bitmap_covers n present L) as Lb. rewrite count_present_bits by exact Lb. rewrite flags_count. rewrite Pl.
        destruct (fst_then (while_remaining (read_row_image_rel n present (rank present (N.to_nat n)) metas)) (mk_rows extra n present) rest) as [F1 F2].
        destruct (while_exact _ _ _ (none_present n present) (rel_image_reads n present metas Hn' Lb) (rel_image_exact n present metas Hn' Lb)) with (bs := rest) as [W1 W2].
        { destruct (some_or_none n present L) as [N|S]; [right|left].
          - split; [intros bs; apply rel_none_image, N|]. split; [intros bs w; apply rel_none_quiet, N|exact N].
          - split; [apply rel_image_consumes; assumption|apply some_not_none, S]. }
        split; [intros w; rewrite F1; apply W1|rewrite F2; exact W2].
      + split; [intros w; rewrite Y1|rewrite Y2]; unfold bitmap_of; tauto.
    - rewrite take_none, no_bits, Pl.
      destruct (fst_then (while_remaining (read_row_image_rel n [] 0 metas)) (mk_rows extra n []) body) as [F1 F2].
      destruct (bare_while (read_row_image_rel n [] 0 metas) body) as [W1 W2]; [intros bs; apply bare_image; auto|].
      split; [intros w; rewrite F1, W1; tauto|rewrite F2; tauto]. }
  specialize (X Hh). destruct X as [X1 X2]. split; [exact X1|]. eapply iff_trans; [exact X2|]. unfold release_rows_endless. split.
  - intros (n & body & Q & T & present & rest & -> & L & N & R). exists n, present, rest. auto.
  - intros (n & present & rest & Q & T & N & R). exists n, (present ++ rest). split; [exact Q|]. split; [exact T|]. exists present, rest. split; [reflexivity|]. split; [exact (proj1 N)|auto].
Qed.
Theorem update_rows_rel_exact extra_len metas payload : extra_len < 2 ^ 64 ->
  (forall w, fst (read_update_rows_rel extra_len metas payload) = Panic w <-> release_update_rows_panic extra_len metas payload w) /\
  (fst (read_update_rows_rel extra_len metas payload) = Loop <-> release_update_rows_endless extra_len payload).
Proof.
  intros B. pose proof (event_rel_exact extra_len (fun extra n b => bb <- read_len b ;; ab <- read_len b ;; c1 <- plift (count_present n bb) ;; c2 <- plift (count_present n ab) ;;
      rows <- while_remaining (read_image_pair_rel n bb ab c1 c2 metas) ;; pret (mk_update_rows extra n bb ab rows))
    (fun n body w => (too_many n /\ body <> [] /\ w = PIndex) \/ (~ too_many n /\ exists bb r, body = bb ++ r /\ bitmap_of n bb /\ exists ab rest, r = ab ++ rest /\ bitmap_of n ab /\
      images_panic (release_pair_read n bb ab metas) (release_pair_panics n bb ab metas) rest w))
    (fun n body => ~ too_many n /\ exists bb r, body = bb ++ r /\ bitmap_of n bb /\ exists ab rest, r = ab ++ rest /\ bitmap_of n ab /\ ((none_present n bb /\ none_present n ab) /\ rest <> [])) payload B) as X.
  match type of X with ?h -> _ => assert h as Hh end.
  { intros extra n body Hn'. assert (forall A B (a : A) (f : A -> parser B) b, pbind (plift (Ok a)) f b = f a b) as Pl by reflexivity.
    destruct (bitmap_width n Hn') as [[T ->]|[T ->]].
    - match goal with |- context [pbind (read_len ?k) ?f body] => destruct (len_tail k f
        (fun bb r w => exists ab rest, r = ab ++ rest /\ bitmap_of n ab /\ images_panic (release_pair_read n bb ab metas) (release_pair_panics n bb ab metas) rest w)
        (fun bb r => exists ab rest, r = ab ++ rest /\ bitmap_of n ab /\ ((none_present n bb /\ none_present n ab) /\ rest <> [])) body) as [Y1 Y2] end.
      + intros bb r L1. apply len_tail. intros ab rest L2.
        pose proof (bitmap_covers n bb L1) as Lb. pose proof (bitmap_covers n ab L2) as La. rewrite count_present_bits by exact Lb. rewrite count_present_bits by exact La. rewrite !flags_count. rewrite !Pl.
        destruct (fst_then (while_remaining (read_image_pair_rel n bb ab (rank bb (N.to_nat n)) (rank ab (N.to_nat n)) metas)) (mk_update_rows extra n bb ab) rest) as [F1 F2].
        destruct (while_exact _ _ _ (none_present n bb /\ none_present n ab) (rel_pair_reads n bb ab metas Hn' Lb La) (rel_pair_exact n bb ab metas Hn' Lb La)) with (bs := rest) as [W1 W2].
        { destruct (some_or_none n bb L1) as [N1|S1].
          - destruct (some_or_none n ab L2) as [N2|S2]; [right|left].
            + split; [intros bs; exists bs; split; apply rel_none_image; assumption|]. split; [|auto].
              intros bs w [H|(mid & _ & H)]; revert H; apply rel_none_quiet; assumption.
            + split; [apply rel_pair_consumes; try assumption; lia|]. intros [_ H]. revert H. apply some_not_none, S2.
          - left. split; [apply rel_pair_consumes; try assumption; lia|]. intros [H _]. revert H. apply some_not_none, S1. }
        split; [intros w; rewrite F1; apply W1|rewrite F2; exact W2].
      + split; [intros w; rewrite Y1|rewrite Y2]; unfold bitmap_of; tauto.
    - rewrite !take_none, !no_bits, !Pl.
      destruct (fst_then (while_remaining (read_image_pair_rel n [] [] 0 0 metas)) (mk_update_rows extra n [] []) body) as [F1 F2].
      destruct (bare_while (read_image_pair_rel n [] [] 0 0 metas) body) as [W1 W2].
      { intros bs. unfold read_image_pair_rel, pbind. pose proof (bare_image n 0 metas bs Hn' T eq_refl) as Q. destruct (read_row_image_rel n [] 0 metas bs) as [r x]. cbn [fst] in Q. subst r. reflexivity. }
      split; [intros w; rewrite F1, W1; tauto|rewrite F2; tauto]. }
  specialize (X Hh). destruct X as [X1 X2]. split.
  - intros w. eapply iff_trans; [exact (X1 w)|]. unfold release_update_rows_panic. split; intros (n & body & Q & [H|[T H]]); exists n, body; (split; [exact Q|]); try (left; exact H); right; (split; [exact T|]).
    + destruct H as (bb & r & -> & L1 & ab & rest & -> & L2 & I). exists bb, ab, rest. auto.
    + destruct H as (bb & ab & rest & -> & L1 & L2 & I). exists bb, (ab ++ rest). split; [reflexivity|]. split; [exact L1|]. exists ab, rest. auto.
  - eapply iff_trans; [exact X2|]. unfold release_update_rows_endless. split.
    + intros (n & body & Q & T & bb & r & -> & L1 & ab & rest & -> & L2 & [N1 N2] & R). exists n, bb, ab, rest. auto.
    + intros (n & bb & ab & rest & Q & T & N1 & N2 & R). exists n, (bb ++ ab ++ rest). split; [exact Q|]. split; [exact T|]. exists bb, (ab ++ rest). split; [reflexivity|]. split; [exact (proj1 N1)|].
      exists ab, rest. split; [reflexivity|]. split; [exact (proj1 N2)|auto].
Qed.
