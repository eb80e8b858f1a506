(** * Which stored values, row images and row events are accepted: lemmas *)
From Coq Require Import Lia ZArith.
From Verif Require Import Model.Base Model.BytesParser Model.LenEnc Model.Utf8 Model.Time Model.Decimal Model.Bitmap
  Model.Col Model.Row Model.Event Model.EventBody Model.Rows
  Spec.Nums Spec.LenEncSpec Spec.Wire Spec.BitmapSpec Spec.DecimalSpec Spec.Accepts Spec.AcceptsEvents Spec.AcceptsRowEvents Spec.EventBodies Spec.BinlogValues
  Proofs.BaseLemmas Proofs.BytesParserProofs Proofs.LenEncProofs Proofs.WireLemmas Proofs.TimeProofs Proofs.DecimalProofs
  Proofs.AcceptsProofs Proofs.AcceptsPackets Proofs.AcceptsRows Proofs.AcceptsEvents Proofs.AcceptsBodies Proofs.AcceptsValues Proofs.BitmapProofs Proofs.RowsProofs.
Open Scope N_scope.

(** ** Values *)
Lemma tb_wrap {A} (wrap : A -> binlog_value) (p : parser A) E m : takes_exactly p E ->
  (forall v w rest, value_layout m v w rest <-> exists a, v = wrap a /\ E a w) -> takes_before (pmap wrap p) (value_layout m).
Proof. intros P H. apply (tb_map wrap _ (fun v w _ => E v w)); [apply tb_of; exact P|exact H]. Qed.
Ltac wrapped L := apply (tb_wrap _ _ _ _ L); let H := fresh in intros ? ? ?; split;
  [intros H; inversion H; subst; eexists; (split; [reflexivity|assumption])|intros (? & -> & H); constructor; exact H].
Lemma te_prefixed (wrap : bytes -> binlog_value) p E : takes_exactly p E ->
  takes_exactly (n <- p ;; pmap wrap (read_len n)) (fun v w => exists s, v = wrap s /\ behind_length E s w).
Proof.
  intros P. eapply te_bind with (F := fun n v w => exists s, v = wrap s /\ N.of_nat (length s) = n /\ w = s); [exact P| |].
  - intros n w _. apply (te_map wrap _ _ _ (te_len n)). intros v w0. reflexivity.
  - intros v w. split.
    + intros (s & -> & l & L & ->). exists (N.of_nat (length s)), l, s. repeat split; [exact L|]. exists s. auto.
    + intros (n & l & w2 & -> & L & s & -> & <- & ->). exists s. split; [reflexivity|]. exists l. auto.
Qed.
Lemma tb_prefixed (wrap : bytes -> binlog_value) p E m : takes_exactly p E ->
  (forall v w rest, value_layout m v w rest <-> exists s, v = wrap s /\ behind_length E s w) ->
  takes_before (n <- p ;; pmap wrap (read_len n)) (value_layout m).
Proof. intros P H. eapply tb_iff; [|apply tb_of; apply (te_prefixed wrap _ _ P)]. intros v w rest. symmetry. apply H. Qed.
Lemma date_parts n y m d : n < 2 ^ 24 ->
  (y = trunc 16 (N.shiftr n 9) /\ m = trunc 8 (N.land (N.shiftr n 5) 15) /\ d = trunc 8 (N.land n 31)) <-> (m < 16 /\ d < 32 /\ n = y * 512 + m * 32 + d).
Proof.
  intros B. unfold trunc. change 31 with (N.ones 5). change 15 with (N.ones 4). rewrite !N.land_ones, !N.shiftr_div_pow2.
  change (2 ^ 5) with 32. change (2 ^ 9) with 512. change (2 ^ 8) with 256. change (2 ^ 16) with 65536. change (2 ^ 4) with 16. change (2 ^ 24) with 16777216 in B. lia.
Qed.
Lemma te_old_date : takes_before (read_binlog_value MDate) (value_layout MDate).
Proof.
  eapply tb_bind with (F := fun n v w _ => w = [] /\ exists y m d, v = LDate y m d /\ m < 16 /\ d < 32 /\ n = y * 512 + m * 32 + d); [apply tb_of, te_u24| |].
  - intros n w rest B. apply is_le_bound in B. apply tb_of, te_ret. intros v w0. split.
    + intros (-> & y & m & d & -> & H). apply date_parts in H; [|exact B]. destruct H as (-> & -> & ->). auto.
    + intros [-> ->]. split; [reflexivity|]. do 3 eexists. split; [reflexivity|]. apply date_parts; [exact B|auto].
  - intros v w rest. split.
    + intros H. inversion H; subst. do 2 eexists. exists []. rewrite app_nil_r. split; [reflexivity|]. split; [eassumption|]. split; [reflexivity|]. do 3 eexists. split; [reflexivity|]. auto.
    + intros (n & w1 & w2 & -> & H & -> & y & m & d & -> & M & D & ->). rewrite app_nil_r. constructor; assumption.
Qed.
Lemma land_top n : n < 2 ^ 24 -> (N.land n 0x800000 =? 0x800000) = (2 ^ 23 <=? n).
Proof.
  intros B. change 0x800000 with (2 ^ 23).
  assert (E : N.land n (2 ^ 23) = if N.testbit n 23 then 2 ^ 23 else 0).
  { apply N.bits_inj. intros i. rewrite N.land_spec. destruct (N.eq_dec i 23) as [->|X].
    - destruct (N.testbit n 23); reflexivity.
    - rewrite N.pow2_bits_false by congruence. rewrite andb_false_r. destruct (N.testbit n 23); [rewrite N.pow2_bits_false by congruence; reflexivity|symmetry; apply N.bits_0]. }
  rewrite E. rewrite N.testbit_eqb. change (2 ^ 23) with 8388608 in *. change (2 ^ 24) with 16777216 in B.
  destruct (N.eqb_spec ((n / 8388608) mod 2) 1) as [Q|Q]; destruct (N.leb_spec 8388608 n); try reflexivity; exfalso; lia.
Qed.
Lemma lor_top n : n < 2 ^ 24 -> N.lor n 0xff000000 = n + 0xff000000.
Proof.
  intros B. rewrite <- N.lxor_lor, <- N.add_nocarry_lxor; [reflexivity| |]; apply N.bits_inj; intros i; rewrite N.land_spec, N.bits_0; change 0xff000000 with (255 * 2 ^ 24);
    (destruct (N.ltb_spec i 24); [rewrite N.mul_pow2_bits_low by assumption; apply andb_false_r|]); rewrite <- (N.mod_small _ _ B), N.mod_pow2_bits_high by assumption; reflexivity.
Qed.
Lemma te_old_time : takes_before (read_binlog_value MTime) (value_layout MTime).
Proof.
  eapply tb_bind with (F := fun n v w _ => w = [] /\ exists t, v = LTime t /\ t_neg t = (2 ^ 23 <=? n) /\ t_micro t = 0 /\
    (if t_neg t then 2 ^ 24 - n else n) = (t_days t * 24 + t_hour t) * 10000 + t_minute t * 100 + t_second t /\ t_hour t < 24 /\ t_minute t < 100 /\ t_second t < 100); [apply tb_of, te_u24| |].
  - intros n w rest B. apply is_le_bound in B. change (256 ^ N.of_nat 3) with (2 ^ 24) in B. cbv beta zeta. rewrite land_top by exact B. rewrite lor_top by exact B.
    set (x := if 2 ^ 23 <=? n then (2 ^ 32 - (n + 0xff000000)) mod 2 ^ 32 else n).
    assert (X : x = if 2 ^ 23 <=? n then 2 ^ 24 - n else n).
    { unfold x. destruct (N.leb_spec (2 ^ 23) n); [|reflexivity]. change (2 ^ 32) with 4294967296. change (2 ^ 24) with 16777216 in *. change (2 ^ 23) with 8388608 in *. rewrite N.mod_small by lia. lia. }
    assert (S : x < 2 ^ 24) by (rewrite X; destruct (N.leb_spec (2 ^ 23) n); change (2 ^ 24) with 16777216 in *; change (2 ^ 23) with 8388608 in *; lia).
    clearbody x. unfold trunc. change (2 ^ 8) with 256. rewrite !(N.mod_small _ 256) by lia.
    apply tb_of, te_ret. intros v w0. split.
    + intros (-> & [neg days hour minute second micro] & -> & N & M & T & H). cbn [t_neg t_days t_hour t_minute t_second t_micro] in *. subst neg micro. rewrite <- X in T. split; [|reflexivity]. f_equal. f_equal; lia.
    + intros [-> ->]. split; [reflexivity|]. eexists. split; [reflexivity|]. cbn [t_neg t_days t_hour t_minute t_second t_micro]. rewrite <- X. repeat split; lia.
  - intros v w rest. split.
    + intros H. inversion H; subst. destruct H0 as (n & L & R). exists n, w, []. rewrite app_nil_r. split; [reflexivity|]. split; [exact L|]. split; [reflexivity|]. exists t. split; [reflexivity|exact R].
    + intros (n & w1 & w2 & -> & L & -> & t & -> & R). rewrite app_nil_r. constructor. exists n. split; [exact L|exact R].
Qed.
Lemma te_year : takes_before (read_binlog_value MYear) (value_layout MYear).
Proof.
  eapply tb_bind with (F := fun n v w _ => w = [] /\ v = LYear (if n =? 0 then 0 else n + 1900)); [apply tb_of, te_u8| |].
  - intros n w rest _. apply tb_of, te_ret. tauto.
  - intros v w rest. split.
    + intros H. inversion H; subst.
      * exists 0, [x00], []. repeat split.
      * exists n, w, []. rewrite app_nil_r. split; [reflexivity|]. split; [assumption|]. split; [reflexivity|]. destruct (N.eqb_spec n 0); [lia|]. f_equal. lia.
    + intros (n & w1 & w2 & -> & L & -> & ->). rewrite app_nil_r. destruct (N.eqb_spec n 0) as [->|X].
      * apply byte1_eq in L. destruct L as (b & -> & B). assert (b = x00) by (apply b2n_inj; symmetry; exact B). subst b. constructor.
      * rewrite N.add_comm. constructor; [lia|exact L].
Qed.
Lemma te_bit bits more : takes_before (read_binlog_value (MBit bits more)) (value_layout (MBit bits more)).
Proof.
  apply tb_lift.
  - intros n E. unfold cadd in E. destruct (N.leb_spec (2 ^ 8) (more + (if 0 <? bits then 1 else 0))) as [B|B]; [discriminate|]. injection E as <-.
    apply (tb_wrap LBit _ _ _ (te_len _)). intros v w rest.
    assert (Z : (if 0 <? bits then 1 else 0) = (if bits =? 0 then 0 else 1)) by (destruct bits; reflexivity). rewrite Z in *. split.
    + intros H. inversion H; subst. eexists. split; [reflexivity|]. split; [assumption|reflexivity].
    + intros (s & -> & L & ->). constructor; [exact L|rewrite L; exact B].
  - intros E v w rest H. inversion H; subst. unfold cadd in E.
    assert (Z : (if 0 <? bits then 1 else 0) = (if bits =? 0 then 0 else 1)) by (destruct bits; reflexivity). rewrite Z in E.
    destruct (N.leb_spec (2 ^ 8) (more + (if bits =? 0 then 0 else 1))) as [B|B]; [change (2 ^ 8) with 256 in B; lia|]. apply (E _ eq_refl).
Qed.
Lemma te_enum k : takes_before (read_binlog_value (MEnum k)) (value_layout (MEnum k)).
Proof.
  assert (Z : {k = 1} + {k = 2} + {k = 3} + {k = 4} + {k = 8} + {k <> 1 /\ k <> 2 /\ k <> 3 /\ k <> 4 /\ k <> 8}).
  { destruct (N.eq_dec k 1), (N.eq_dec k 2), (N.eq_dec k 3), (N.eq_dec k 4), (N.eq_dec k 8); tauto. }
  destruct Z as [[[[[->| ->]| ->]| ->]| ->]|(N1 & N2 & N3 & N4 & N8)].
  - wrapped te_u8. - wrapped te_u16. - wrapped te_u24. - wrapped te_u32. - wrapped te_u64.
  - apply tb_fail.
    + intros bs v rest. cbn [read_binlog_value]. destruct k as [|p]; [discriminate|]. do 4 (destruct p as [p|p|]; try discriminate; try congruence).
    + intros v w rest H. inversion H; subst; congruence.
Qed.
Lemma te_blob k : takes_before (read_binlog_value (MBlob k)) (value_layout (MBlob k)).
Proof.
  assert (Z : {k = 1} + {k = 2} + {k = 3} + {k = 4} + {k <> 1 /\ k <> 2 /\ k <> 3 /\ k <> 4}).
  { destruct (N.eq_dec k 1), (N.eq_dec k 2), (N.eq_dec k 3), (N.eq_dec k 4); tauto. }
  destruct Z as [[[[->| ->]| ->]| ->]|(N1 & N2 & N3 & N4)];
    [apply (tb_prefixed LBlob _ _ _ te_u8)|apply (tb_prefixed LBlob _ _ _ te_u16)|apply (tb_prefixed LBlob _ _ _ te_u24)|apply (tb_prefixed LBlob _ _ _ te_u32)|].
  5:{ apply tb_fail.
      + intros bs v rest. cbn [read_binlog_value]. destruct k as [|p]; [discriminate|]. do 3 (destruct p as [p|p|]; try discriminate; try congruence).
      + intros v w rest H. inversion H; subst. lia. }
  all: intros v w rest; (split; [intros H; inversion H; subst; eexists; split; [reflexivity|assumption]|intros (s & -> & H); constructor; [lia|exact H]]).
Qed.
Lemma te_length_of max : takes_exactly (if max <? 256 then read_u8 else read_le_u16) (is_le (if max <? 256 then 1 else 2)).
Proof. destruct (max <? 256); [exact te_u8|exact te_u16]. Qed.
Lemma te_varchar max : takes_before (read_binlog_value (MVarString max)) (value_layout (MVarString max)).
Proof.
  eapply tb_bind with (F := fun n v w _ => n <= max /\ exists s, v = LVarString s /\ N.of_nat (length s) = n /\ w = s); [apply tb_of, te_length_of| |].
  - intros n w rest _. destruct (N.ltb_spec max n) as [B|B].
    + apply tb_fail; [discriminate|]. intros v w0 r [H _]. lia.
    + apply tb_of. apply (te_map LVarString _ _ _ (te_len n)). intros v w0. split.
      * intros (_ & s & -> & L & ->). exists s. split; [reflexivity|]. split; [exact L|reflexivity].
      * intros (s & -> & L & ->). split; [exact B|]. exists s. auto.
  - intros v w rest. split.
    + intros H. inversion H; subst. match goal with X : behind_length _ _ _ |- _ => destruct X as (l & L & ->) end. eexists _, l, s. split; [reflexivity|]. split; [exact L|]. split; [assumption|]. exists s. auto.
    + intros (n & l & w2 & -> & L & B & s & -> & <- & ->). constructor; [exact B|]. exists l. auto.
Qed.
Lemma te_char len : takes_before (read_binlog_value (MString len)) (value_layout (MString len)).
Proof.
  cbn [read_binlog_value]. replace (if 0xff <? len then read_le_u16 else read_u8) with (if len <? 256 then read_u8 else read_le_u16).
  - apply (tb_prefixed LString _ _ _ (te_length_of len)). intros v w rest. split; [intros H; inversion H; subst; eexists; split; [reflexivity|assumption]|intros (s & -> & H); constructor; exact H].
  - destruct (N.ltb_spec len 256), (N.ltb_spec 0xff len); try reflexivity; lia.
Qed.
Theorem accepts_value m : takes_before (read_binlog_value m) (value_layout m).
Proof.
  destruct m.
  all: try exact te_old_date. all: try exact te_old_time. all: try exact te_year. all: try apply te_bit. all: try apply te_enum. all: try apply te_blob. all: try apply te_varchar. all: try apply te_char.
  all: try (apply tb_fail; [discriminate|intros v w rest H; inversion H]).
  - wrapped te_u8.
  - wrapped te_u16.
  - wrapped te_u32.
  - wrapped te_f32.
  - wrapped te_f64.
  - eapply tb_iff; [|apply (tb_of (pret LNull) (fun v w => v = LNull /\ w = [])), te_ret; reflexivity].
    intros v w rest. split; [intros [-> ->]; constructor|intros H; inversion H; auto].
  - wrapped te_be32.
  - wrapped te_u64.
  - wrapped te_u24.
  - wrapped (accepts_datetime frac).
  - wrapped (accepts_time frac).
  - cbn [read_binlog_value]. destruct (N.ltb_spec prec frac) as [B|B].
    + apply tb_fail; [discriminate|]. intros v w rest H. inversion H; subst. lia.
    + apply (tb_map LNewDecimal _ _ _ (accepts_decimal _ _)). intros v w rest. split.
      * intros H. inversion H; subst. eexists. split; [reflexivity|assumption].
      * intros (d & -> & H). constructor; assumption.
Qed.

(** ** Row images *)
Lemma tb_ret {A} (a : A) (E : A -> bytes -> bytes -> Prop) : (forall v w rest, E v w rest <-> v = a /\ w = []) -> takes_before (pret a) E.
Proof. intros H. eapply tb_iff; [|apply (tb_of (pret a) (fun v w => v = a /\ w = [])), te_ret; reflexivity]. intros v w rest. symmetry. apply H. Qed.
(** what the bitmaps tell of [n] columns *)
Fixpoint cells (present null : nat -> bool) (i j n : nat) : list cell :=
  match n with
  | O => []
  | S n => if present i then (if null j then CNull else CVal LNull []) :: cells present null (S i) (S j) n
           else CAbsent :: cells present null (S i) j n
  end.
Lemma cells_length present null n : forall i j, length (cells present null i j n) = n.
Proof. induction n as [|n IH]; intros i j; [reflexivity|]. cbn [cells]. destruct (present i); cbn [length]; rewrite IH; reflexivity. Qed.
Lemma cells_present present null n : forall i j k, (k < n)%nat -> is_present (nth k (cells present null i j n) CAbsent) = present (i + k)%nat.
Proof.
  induction n as [|n IH]; intros i j k H; [lia|]. cbn [cells]. destruct k as [|k].
  - rewrite Nat.add_0_r. destruct (present i), (null j); reflexivity.
  - rewrite <- Nat.add_succ_comm. destruct (present i); cbn [nth]; apply IH; lia.
Qed.
Lemma cells_count present null n : forall i j, length (filter is_present (cells present null i j n)) = length (filter present (seq i n)).
Proof.
  induction n as [|n IH]; intros i j; [reflexivity|]. cbn [cells seq filter]. destruct (present i); [destruct (null j)|]; cbn [filter is_present length]; rewrite IH; reflexivity.
Qed.
Lemma cells_null present null n : forall i j k, (k < length (filter is_present (cells present null i j n)))%nat ->
  nth k (map is_null (filter is_present (cells present null i j n))) false = null (j + k)%nat.
Proof.
  induction n as [|n IH]; intros i j k H; [cbn in H; lia|]. cbn [cells] in *. destruct (present i).
  - assert (P : is_present (if null j then CNull else CVal LNull []) = true) by (destruct (null j); reflexivity).
    cbn [filter] in *. rewrite P in *. cbn [length map] in *. destruct k as [|k].
    + rewrite Nat.add_0_r. cbn [nth]. destruct (null j); reflexivity.
    + cbn [nth]. rewrite <- Nat.add_succ_comm. apply IH. lia.
  - cbn [filter is_present] in *. apply IH. exact H.
Qed.
Lemma count_is n bm : n <= 8 * N.of_nat (length bm) -> count_present n bm = Ok (present_count n bm).
Proof.
  intros H. unfold count_present, present_count. rewrite bm_to_iter_spec by lia. cbn [rmap rbind]. unfold bits_from. rewrite Nat.sub_0_r.
  replace (8 * length bm)%nat with (N.to_nat n + (8 * length bm - N.to_nat n))%nat by lia.
  rewrite seq_app, map_app, firstn_app, map_length, seq_length, Nat.sub_diag. cbn [firstn]. rewrite app_nil_r.
  rewrite firstn_all2 by (rewrite map_length, seq_length; lia). f_equal. generalize (seq 0 (N.to_nat n)). intros l.
  induction l as [|i l IH]; [reflexivity|]. cbn [map filter]. destruct (bit bm i); cbn [length]; rewrite IH; reflexivity.
Qed.
Lemma tb_columns present null metas cb n : forall i j, (i + n <= 8 * length cb)%nat ->
  (forall k, (k < n)%nat -> bit cb (i + k) = is_val (nth k (cells present null i j n) CAbsent)) ->
  takes_before (read_log_cols n i cb metas) (image_columns present null metas i j n).
Proof.
  induction n as [|n IH]; intros i j L B; cbn [read_log_cols].
  - apply tb_ret. intros v w rest. split; [intros H; inversion H; auto|intros [-> ->]; constructor].
  - rewrite bm_index_spec by lia. pose proof (B 0%nat ltac:(lia)) as B0. rewrite Nat.add_0_r in B0. rewrite B0.
    intros bs v rest. unfold pbind at 1, plift at 1. cbn [fst snd]. revert bs v rest.
    match goal with |- forall bs v rest, ?p bs = _ <-> _ => change (takes_before p (image_columns present null metas i j (S n))) end.
    assert (J : forall j', (forall k, (k < n)%nat -> nth (S k) (cells present null i j (S n)) CAbsent = nth k (cells present null (S i) j' n) CAbsent) ->
              takes_before (read_log_cols n (S i) cb metas) (image_columns present null metas (S i) j' n)).
    { intros j' E. apply IH; [lia|]. intros k K. rewrite Nat.add_succ_comm. rewrite B by lia. rewrite E by exact K. reflexivity. }
    destruct (present i) eqn:P; [destruct (null j) eqn:Q|].
    + specialize (J (S j)). cbn [cells] in J |- *. rewrite P, Q in J |- *. specialize (J (fun k _ => eq_refl)). cbn [nth is_val].
      eapply tb_bind with (E := fun v w _ => v = LNull /\ w = []) (F := fun a v w rest => exists vs, v = a :: vs /\ image_columns present null metas (S i) (S j) n vs w rest).
      * apply tb_ret. reflexivity.
      * intros a w rest _. apply (tb_map (cons a) _ _ _ J). reflexivity.
      * intros v w rest. split.
        -- intros H. inversion H; subst; try congruence. exists LNull, [], w. repeat split. eexists. split; [reflexivity|assumption].
        -- intros (a & w1 & w2 & -> & [-> ->] & vs & -> & H). apply ic_null; assumption.
    + specialize (J (S j)). cbn [cells] in J |- *. rewrite P, Q in J |- *. specialize (J (fun k _ => eq_refl)). cbn [nth is_val].
      eapply tb_bind with (E := fun v w rest => exists m, nth_error metas i = Some m /\ value_layout m v w rest) (F := fun a v w rest => exists vs, v = a :: vs /\ image_columns present null metas (S i) (S j) n vs w rest).
      * destruct (nth_error metas i) as [m|].
        -- eapply tb_iff; [|apply (accepts_value m)]. intros v w rest. split; [intros H; exists m; auto|intros (m' & [= <-] & H); exact H].
        -- apply tb_fail; [discriminate|]. intros v w rest (m & H & _). discriminate.
      * intros a w rest _. apply (tb_map (cons a) _ _ _ J). reflexivity.
      * intros v w rest. split.
        -- intros H. inversion H; subst; try congruence. do 3 eexists. split; [reflexivity|]. split; [eexists; split; eassumption|]. eexists. split; [reflexivity|assumption].
        -- intros (a & w1 & w2 & -> & (m & M & V) & vs & -> & H). eapply ic_value; eassumption.
    + specialize (J j). cbn [cells] in J |- *. rewrite P in J |- *. specialize (J (fun k _ => eq_refl)). cbn [nth is_val].
      eapply tb_bind with (E := fun v w _ => v = LNull /\ w = []) (F := fun a v w rest => exists vs, v = a :: vs /\ image_columns present null metas (S i) j n vs w rest).
      * apply tb_ret. reflexivity.
      * intros a w rest _. apply (tb_map (cons a) _ _ _ J). reflexivity.
      * intros v w rest. split.
        -- intros H. inversion H; subst; try congruence. exists LNull, [], w. repeat split. eexists. split; [reflexivity|assumption].
        -- intros (a & w1 & w2 & -> & [-> ->] & vs & -> & H). apply ic_absent; assumption.
Qed.
Lemma accepts_image n present metas : n <= 8 * N.of_nat (length present) ->
  takes_before (read_row_image n present (present_count n present) metas) (image_layout n present metas).
Proof.
  intros L. unfold read_row_image.
  eapply tb_bind with (E := fun s w _ => N.of_nat (length s) = N.shiftr (N.of_nat (present_count n present) + 7) 3 /\ exactly s w)
    (F := fun nulls vs w rest => 40 * n < 2 ^ 63 /\ image_columns (bit present) (bit nulls) metas 0 0 (N.to_nat n) vs w rest); [apply tb_of, te_len| |].
  - intros nulls w rest [Ln _]. rewrite N.shiftr_div_pow2 in Ln. change (2 ^ 3) with 8 in Ln.
    set (row := cells (bit present) (bit nulls) 0 0 (N.to_nat n)).
    assert (C : length (filter is_present row) = present_count n present) by apply cells_count.
    destruct (mark_nulls_spec row 0 0 nulls present) as (cb & M1 & M2 & M3 & _).
    + intros k K. unfold row in *. rewrite cells_length in K. rewrite cells_present by exact K. reflexivity.
    + unfold row. rewrite cells_length. lia.
    + intros k K. unfold row in *. rewrite cells_null by exact K. reflexivity.
    + rewrite C. lia.
    + rewrite C in M1. rewrite M1. intros bs v r. unfold pbind at 1, plift at 1. cbn [fst snd]. revert bs v r.
      match goal with |- forall bs v rest, ?p bs = _ <-> _ => change (takes_before p (fun vs w rest => 40 * n < 2 ^ 63 /\ image_columns (bit present) (bit nulls) metas 0 0 (N.to_nat n) vs w rest)) end.
      unfold read_log_row. apply tb_lift.
      * intros u U. destruct u. apply with_capacity_ok in U. eapply tb_iff; [|apply (tb_columns (bit present) (bit nulls))].
        -- intros vs w0 r. split; [intros H; split; [exact U|exact H]|intros [_ H]; exact H].
        -- rewrite M2. lia.
        -- intros k K. unfold row in *. rewrite cells_length in M3. apply M3. exact K.
      * intros X v w0 r [H _]. apply (with_capacity_ok 40 n tt) in H. apply (X _ H).
  - intros v w rest. unfold image_layout. split.
    + intros (nulls & cols & -> & Ln & B & H). exists nulls, nulls, cols. split; [reflexivity|]. split; [split; [|reflexivity]|auto].
      rewrite N.shiftr_div_pow2. change (2 ^ 3) with 8. rewrite Ln. lia.
    + intros (nulls & w1 & cols & -> & [Ln W] & B & H). unfold exactly in W. subst w1. exists nulls, cols. split; [reflexivity|]. split; [|auto].
      rewrite N.shiftr_div_pow2 in Ln. change (2 ^ 3) with 8 in Ln. lia.
Qed.

(** ** Rows to the end *)
Lemma never_ends {A} (p : parser A) m a k vs : m <> [] -> p m = (Ok a, m) -> fst (pwhile k p m) <> Ok vs.
Proof.
  intros M P. destruct m as [|b m]; [contradiction|]. revert vs. induction k as [|k IH]; intros vs; cbn [pwhile]; [discriminate|].
  unfold pbind, pret. rewrite P. destruct (pwhile k p (b :: m)) as [[l|? |?|] r] eqn:E; try discriminate. destruct (IH l eq_refl).
Qed.
Lemma rows_nil {A} (E : A -> bytes -> bytes -> Prop) vs m : rows_layout E vs m -> m = [] -> vs = [].
Proof. intros H Z. destruct H as [|r rs w ws W _ _]; [reflexivity|]. apply app_eq_nil in Z. destruct Z. contradiction. Qed.
Lemma tb_while {A} (p : parser A) E : takes_before p E -> forall msg vs, fst (while_remaining p msg) = Ok vs <-> rows_layout E vs msg.
Proof.
  intros P msg vs. unfold while_remaining. remember (length msg) as k eqn:L. assert (L' : (length msg <= k)%nat) by lia. clear L.
  revert msg vs L'. induction k as [|k IH]; intros msg vs L.
  - destruct msg; [|cbn in L; lia]. cbn. split; [intros [= <-]; constructor|]. intros H. rewrite (rows_nil _ _ _ H eq_refl). reflexivity.
  - destruct msg as [|b msg].
    { cbn. split; [intros [= <-]; constructor|]. intros H. rewrite (rows_nil _ _ _ H eq_refl). reflexivity. }
    cbn [pwhile]. remember (b :: msg) as m eqn:Em. unfold pbind, pret. split.
    + destruct (p m) as [[a|? |?|] r] eqn:X; try discriminate. pose proof X as X0. apply P in X. destruct X as (w & E1 & Ea).
      specialize (IH r). destruct (pwhile k p r) as [[l|? |?|] r2] eqn:Y; try discriminate. intros [= <-].
      assert (W : w <> []).
      { intros ->. cbn [app] in E1. subst r. apply (never_ends p m a k l); [subst m; discriminate|exact X0|rewrite Y; reflexivity]. }
      assert (Lr : (length r <= k)%nat).
      { destruct w as [|c w]; [contradiction|]. apply (f_equal (@length byte)) in E1. rewrite app_length in E1. cbn [length] in E1. lia. }
      rewrite E1. constructor; [exact W|exact Ea|]. apply IH; [exact Lr|reflexivity].
    + intros H. destruct H as [|a l w r W Ea H]; [discriminate|].
      assert (X : p (w ++ r) = (Ok a, r)) by (apply P; eauto). rewrite X.
      assert (Lr : (length r <= k)%nat).
      { destruct w as [|c w]; [contradiction|]. rewrite app_length in L. cbn [length] in L. lia. }
      apply IH in H; [|exact Lr]. destruct (pwhile k p r) as [r1 r2]. cbn [fst] in H. subst r1. reflexivity.
Qed.
Lemma lei_u32 l w n : lei_layout l w -> (lei_to_u32 l = Some n <-> exists m, lei_to_u64 l = Some m /\ n = m mod 2 ^ 32).
Proof.
  intros L. destruct l as [| |k|k|k|k]; cbn [lei_to_u32 lei_to_u64 lei_layout] in *.
  1,2: split; [discriminate|intros (m & Q & _); discriminate].
  4: split; [intros [= <-]; exists k; auto|intros (m & [= <-] & ->); reflexivity].
  all: assert (B : k mod 2 ^ 32 = k).
  1:{ apply N.mod_small. destruct L as [L _]. eapply N.lt_trans; [exact L|reflexivity]. }
  2,4: apply fields_cons_inv in L; destruct L as (w1 & w2 & -> & _ & L); rewrite fields_one in L; apply is_le_bound in L; apply N.mod_small; eapply N.lt_le_trans; [exact L|]; discriminate.
  all: split; [intros [= <-]; exists k; auto|intros (m & [= <-] & ->); rewrite B; reflexivity].
Qed.
Lemma te_n_cols : takes_exactly read_n_cols (fun x w => (fst x + 7 < 2 ^ 32 /\ snd x = (fst x + 7) / 8) /\ column_count (fst x) w).
Proof.
  eapply te_bind with (F := fun l x w => w = [] /\ lei_to_u32 l = Some (fst x) /\ fst x + 7 < 2 ^ 32 /\ snd x = (fst x + 7) / 8); [exact te_lei| |].
  - intros l w L bs [n k] rest. cbn [fst snd]. destruct (lei_to_u32 l) as [m|].
    + rewrite ret_bind. unfold pbind, plift, pret, cadd. cbn [fst snd]. destruct (N.leb_spec (2 ^ 32) (m + 7)) as [B|B].
      * split; [discriminate|]. intros (w0 & _ & _ & [= ->] & X & _). lia.
      * rewrite N.shiftr_div_pow2. change (2 ^ 3) with 8. split.
        -- intros [= <- <- <-]. exists []. auto.
        -- intros (w0 & -> & -> & [= ->] & _ & ->). reflexivity.
    + split; [discriminate|]. intros (w0 & _ & _ & X & _). discriminate.
  - intros [n k] w. cbn [fst snd]. unfold column_count. split.
    + intros [C (m & M & ->)]. apply any_lei in M. destruct M as (l & L & M). exists l, w, []. rewrite app_nil_r. split; [reflexivity|]. split; [exact L|]. split; [reflexivity|]. split; [apply (lei_u32 _ _ _ L); exists m; auto|exact C].
    + intros (l & w1 & w2 & -> & L & -> & M & C). apply (lei_u32 _ _ _ L) in M. destruct M as (m & M & ->). rewrite app_nil_r. split; [exact C|]. exists m. split; [apply any_lei; eauto|reflexivity].
Qed.
Lemma tm_rows {A B} (p : parser A) E (f : list A -> B) : takes_before p E ->
  takes_message (rows <- while_remaining p ;; pret (f rows)) (fun v w => exists rows, v = f rows /\ rows_layout E rows w).
Proof.
  intros P msg v. pose proof (tb_while p E P msg) as T. unfold pbind, pret. destruct (while_remaining p msg) as [[rows|? |?|] r]; cbn [fst] in *.
  - split; [intros [= <-]; exists rows; split; [reflexivity|apply T; reflexivity]|intros (rows' & -> & H); apply T in H; congruence].
  - split; [discriminate|intros (rows' & _ & H); apply T in H; discriminate].
  - split; [discriminate|intros (rows' & _ & H); apply T in H; discriminate].
  - split; [discriminate|intros (rows' & _ & H); apply T in H; discriminate].
Qed.
Lemma csub_ok a b n : csub a b = Ok n <-> a = n + b.
Proof. unfold csub. destruct (N.ltb_spec a b); split; intros H0; try discriminate; try (injection H0 as <-); try (f_equal); lia. Qed.
Theorem accepts_rows d metas r : rows_of d metas = Ok r <-> rows_event_layout (rd2_extra_data_len d) metas r (rd2_payload d).
Proof.
  unfold rows_of. generalize (rd2_payload d) as msg. generalize (rd2_extra_data_len d) as len. intros len msg. revert msg r.
  change (takes_message (read_rows_v2 len metas) (rows_event_layout len metas)). unfold read_rows_v2. apply tm_lift.
  2:{ intros X v w [[H _] _]. apply (X (N.of_nat (length (r_extra_data v)))). apply csub_ok. exact H. }
  intros n N. apply csub_ok in N.
  eapply tm_bind with (F := fun extra v w => exists w1 w2 w3, w = w1 ++ w2 ++ w3 /\ r_extra_data v = extra /\ (r_n_cols v + 7 < 2 ^ 32 /\ column_count (r_n_cols v) w1) /\
    (N.of_nat (length (r_present_bitmap v)) = (r_n_cols v + 7) / 8 /\ w2 = r_present_bitmap v) /\ rows_layout (image_layout (r_n_cols v) (r_present_bitmap v) metas) (r_rows v) w3); [apply te_len| |].
  { intros extra w0 _.
    eapply tm_bind with (F := fun x v w => exists w2 w3, w = w2 ++ w3 /\ r_extra_data v = extra /\ r_n_cols v = fst x /\
      (N.of_nat (length (r_present_bitmap v)) = snd x /\ w2 = r_present_bitmap v) /\ rows_layout (image_layout (r_n_cols v) (r_present_bitmap v) metas) (r_rows v) w3); [apply te_n_cols| |].
    - intros [k bl] w1 [[K BL] _]. cbn [fst snd] in *.
      eapply tm_bind with (F := fun bm v w => exists rows, v = mk_rows extra k bm rows /\ rows_layout (image_layout k bm metas) rows w); [apply te_len| |].
      + intros bm w2 [Lb _]. assert (LB : k <= 8 * N.of_nat (length bm)) by (rewrite Lb, BL; lia). rewrite (count_is _ _ LB). apply tm_lift; [|intros X; destruct (X _ eq_refl)].
        intros c [= <-]. apply tm_rows. apply accepts_image. exact LB.
      + intros v w. split.
        * intros (w2 & w3 & -> & <- & <- & [Lb ->] & R). exists (r_present_bitmap v), (r_present_bitmap v), w3. split; [reflexivity|]. split; [split; [exact Lb|reflexivity]|]. exists (r_rows v). split; [destruct v; reflexivity|exact R].
        * intros (bm & w2 & w3 & -> & [Lb W] & rows & -> & R). exists w2, w3. cbn [r_extra_data r_n_cols r_present_bitmap r_rows]. repeat split; assumption.
    - intros v w. split.
      + intros (w1 & w2 & w3 & -> & <- & [K C] & [Lb ->] & R). exists (r_n_cols v, (r_n_cols v + 7) / 8), w1, (r_present_bitmap v ++ w3). cbn [fst snd]. split; [reflexivity|]. split; [split; [split; [exact K|reflexivity]|exact C]|].
        exists (r_present_bitmap v), w3. repeat split; assumption.
      + intros ([k bl] & w1 & w23 & -> & [[K BL] C] & w2 & w3 & -> & E & En & [Lb ->] & R). cbn [fst snd] in *. subst k bl. exists w1, (r_present_bitmap v), w3. repeat split; assumption. }
  intros v w. unfold rows_event_layout. split.
  - intros [(L & K & Lb) H]. apply fields_cons_inv in H. destruct H as (w0 & w' & -> & -> & H). apply fields_cons_inv in H. destruct H as (w1 & w'' & -> & C & H).
    apply fields_cons_inv in H. destruct H as (w2 & w3 & -> & -> & H). rewrite fields_one in H. exists (r_extra_data v), (r_extra_data v), (w1 ++ r_present_bitmap v ++ w3).
    split; [reflexivity|]. split; [split; [lia|reflexivity]|]. exists w1, (r_present_bitmap v), w3. repeat split; assumption.
  - intros (extra & w0 & w' & -> & [L W] & w1 & w2 & w3 & -> & <- & [K C] & [Lb ->] & R). unfold exactly in W. subst w0. split; [repeat split; [lia|exact K|exact Lb]|].
    constructor; [reflexivity|]. constructor; [exact C|]. constructor; [reflexivity|]. apply fields_one. exact R.
Qed.
Lemma accepts_pair n before after metas : n <= 8 * N.of_nat (length before) -> n <= 8 * N.of_nat (length after) ->
  takes_before (before_row <- read_row_image n before (present_count n before) metas ;; after_row <- read_row_image n after (present_count n after) metas ;; pret (before_row, after_row))
    (update_layout n before after metas).
Proof.
  intros B A. eapply tb_bind with (F := fun b v w rest => exists a, v = (b, a) /\ image_layout n after metas a w rest); [apply (accepts_image n before metas B)| |].
  - intros b w rest _. apply (tb_map (fun a => (b, a)) _ _ _ (accepts_image n after metas A)). reflexivity.
  - intros v w rest. unfold update_layout. split.
    + intros (w1 & w2 & -> & X & Y). exists (fst v), w1, w2. split; [reflexivity|]. split; [exact X|]. exists (snd v). split; [destruct v; reflexivity|exact Y].
    + intros (b & w1 & w2 & -> & X & a & -> & Y). exists w1, w2. auto.
Qed.
Theorem accepts_update_rows d metas r : update_rows_of d metas = Ok r <-> update_event_layout (rd2_extra_data_len d) metas r (rd2_payload d).
Proof.
  unfold update_rows_of. generalize (rd2_payload d) as msg. generalize (rd2_extra_data_len d) as len. intros len msg. revert msg r.
  change (takes_message (read_update_rows len metas) (update_event_layout len metas)). unfold read_update_rows. apply tm_lift.
  2:{ intros X v w [[H _] _]. apply (X (N.of_nat (length (u_extra_data v)))). apply csub_ok. exact H. }
  intros n N. apply csub_ok in N.
  pose (R (v : update_rows_v2) := rows_layout (update_layout (u_n_cols v) (u_before_present_bitmap v) (u_after_present_bitmap v) metas) (u_rows v)).
  eapply tm_bind with (F := fun extra v w => exists w1 w2 w3 w4, w = w1 ++ w2 ++ w3 ++ w4 /\ u_extra_data v = extra /\ (u_n_cols v + 7 < 2 ^ 32 /\ column_count (u_n_cols v) w1) /\
    (N.of_nat (length (u_before_present_bitmap v)) = (u_n_cols v + 7) / 8 /\ w2 = u_before_present_bitmap v) /\
    (N.of_nat (length (u_after_present_bitmap v)) = (u_n_cols v + 7) / 8 /\ w3 = u_after_present_bitmap v) /\ R v w4); [apply te_len| |].
  { intros extra w0 _.
    eapply tm_bind with (F := fun x v w => exists w2 w3 w4, w = w2 ++ w3 ++ w4 /\ u_extra_data v = extra /\ u_n_cols v = fst x /\
      (N.of_nat (length (u_before_present_bitmap v)) = snd x /\ w2 = u_before_present_bitmap v) /\
      (N.of_nat (length (u_after_present_bitmap v)) = snd x /\ w3 = u_after_present_bitmap v) /\ R v w4); [apply te_n_cols| |].
    - intros [k bl] w1 [[K BL] _]. cbn [fst snd] in *.
      eapply tm_bind with (F := fun bm v w => exists w3 w4, w = w3 ++ w4 /\ u_extra_data v = extra /\ u_n_cols v = k /\ u_before_present_bitmap v = bm /\
        (N.of_nat (length (u_after_present_bitmap v)) = bl /\ w3 = u_after_present_bitmap v) /\ R v w4); [apply te_len| |].
      + intros bm w2 [Lb _]. assert (LB : k <= 8 * N.of_nat (length bm)) by (rewrite Lb, BL; lia).
        eapply tm_bind with (F := fun am v w => exists rows, v = mk_update_rows extra k bm am rows /\ rows_layout (update_layout k bm am metas) rows w); [apply te_len| |].
        * intros am w3 [La _]. assert (LA : k <= 8 * N.of_nat (length am)) by (rewrite La, BL; lia). rewrite (count_is _ _ LB), (count_is _ _ LA).
          apply tm_lift; [|intros X; destruct (X _ eq_refl)]. intros c [= <-]. apply tm_lift; [|intros X; destruct (X _ eq_refl)]. intros c [= <-].
          apply tm_rows. apply accepts_pair; assumption.
        * intros v w. split.
          -- intros (w3 & w4 & -> & <- & <- & <- & [La ->] & H). exists (u_after_present_bitmap v), (u_after_present_bitmap v), w4. split; [reflexivity|]. split; [split; [exact La|reflexivity]|]. exists (u_rows v). split; [destruct v; reflexivity|exact H].
          -- intros (am & w3 & w4 & -> & [La W] & rows & -> & H). exists w3, w4. cbn [u_extra_data u_n_cols u_before_present_bitmap u_after_present_bitmap u_rows]. repeat split; assumption.
      + intros v w. split.
        * intros (w2 & w3 & w4 & -> & <- & <- & [Lb ->] & [La ->] & H). exists (u_before_present_bitmap v), (u_before_present_bitmap v), (u_after_present_bitmap v ++ w4). split; [reflexivity|]. split; [split; [exact Lb|reflexivity]|].
          exists (u_after_present_bitmap v), w4. repeat split; assumption.
        * intros (bm & w2 & w34 & -> & [Lb W] & w3 & w4 & -> & E & En & <- & [La ->] & H). exists w2, (u_after_present_bitmap v), w4. repeat split; assumption.
    - intros v w. split.
      + intros (w1 & w2 & w3 & w4 & -> & <- & [K C] & [Lb ->] & [La ->] & H). exists (u_n_cols v, (u_n_cols v + 7) / 8), w1, (u_before_present_bitmap v ++ u_after_present_bitmap v ++ w4). cbn [fst snd]. split; [reflexivity|]. split; [split; [split; [exact K|reflexivity]|exact C]|].
        exists (u_before_present_bitmap v), (u_after_present_bitmap v), w4. repeat split; assumption.
      + intros ([k bl] & w1 & w234 & -> & [[K BL] C] & w2 & w3 & w4 & -> & E & En & [Lb ->] & [La ->] & H). cbn [fst snd] in *. subst k bl. exists w1, (u_before_present_bitmap v), (u_after_present_bitmap v), w4. repeat split; assumption. }
  intros v w. unfold update_event_layout. split.
  - intros [(L & K & Lb & La) H]. apply fields_cons_inv in H. destruct H as (w0 & w' & -> & -> & H). apply fields_cons_inv in H. destruct H as (w1 & w'' & -> & C & H).
    apply fields_cons_inv in H. destruct H as (w2 & w34 & -> & -> & H). apply fields_cons_inv in H. destruct H as (w3 & w4 & -> & -> & H). rewrite fields_one in H.
    exists (u_extra_data v), (u_extra_data v), (w1 ++ u_before_present_bitmap v ++ u_after_present_bitmap v ++ w4).
    split; [reflexivity|]. split; [split; [lia|reflexivity]|]. exists w1, (u_before_present_bitmap v), (u_after_present_bitmap v), w4. repeat split; assumption.
  - intros (extra & w0 & w' & -> & [L W] & w1 & w2 & w3 & w4 & -> & <- & [K C] & [Lb ->] & [La ->] & H). unfold exactly in W. subst w0. split; [repeat split; [lia|exact K|exact Lb|exact La]|].
    constructor; [reflexivity|]. constructor; [exact C|]. constructor; [reflexivity|]. constructor; [reflexivity|]. apply fields_one. exact H.
Qed.
