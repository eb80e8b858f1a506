(** * JSON rows *)
From Coq Require Import Strings.String.
From Verif Require Import Model.Base Model.BytesParser Model.Utf8 Model.Bitmap Model.Flags Model.Auth Model.Fmt Model.Time Model.Decimal Model.Col
  Model.Row Model.Rows Model.Stmt Model.Transform
  Spec.Nums Spec.Wire Spec.Temporal Spec.DecimalSpec Spec.BitmapSpec Spec.SqlSpec Spec.JsonSpec
  Proofs.BaseLemmas Proofs.BytesParserProofs Proofs.CodecProofs Proofs.TimeProofs Proofs.DecimalProofs Proofs.CalendarProofs Proofs.SqlProofs Proofs.SqlStmtProofs Proofs.SqlFindings.
From Coq Require Import Lia Permutation Sorted.
Open Scope N_scope.

(** ** Base64 *)
Lemma sextet_ok : forallb (fun n => match sextet (base64_char n) with Some m => m =? n | None => false end
                                    && negb (Byte.eqb (base64_char n) pad)) (map N.of_nat (seq 0 64)) = true.
Proof. vm_compute. reflexivity. Qed.
Lemma sextet_char n : n < 64 -> sextet (base64_char n) = Some n /\ Byte.eqb (base64_char n) pad = false.
Proof.
  intros H. pose proof sextet_ok as E. rewrite forallb_forall in E. specialize (E n).
  assert (K : In n (map N.of_nat (seq 0 64))) by (apply in_map_iff; exists (N.to_nat n); split; [lia|apply in_seq; lia]).
  specialize (E K). apply andb_prop in E as [E1 E2]. destruct (sextet (base64_char n)) as [m|]; [|discriminate].
  apply N.eqb_eq in E1. subst m. apply negb_true_iff in E2. split; [reflexivity|exact E2].
Qed.
Lemma base64_round_trip : forall k bs, (length bs <= k)%nat -> base64_decode (base64_encode bs) = Some bs.
Proof.
  induction k as [|k IH]; intros bs H; [destruct bs; [reflexivity|cbn in H; lia]|].
  destruct bs as [|a [|b [|c bs]]]; [reflexivity| | |]; pose proof (b2n_lt a) as Ha; cbn [base64_encode]; cbv zeta.
  - set (n := b2n a * 65536).
    assert (L1 : n / 262144 < 64) by (subst n; lia). assert (L2 : n / 4096 mod 64 < 64) by lia.
    cbn [base64_decode]. destruct (sextet_char _ L1) as [-> _]. destruct (sextet_char _ L2) as [-> _].
    change (Byte.eqb (n2b 61) pad) with true. cbv iota.
    replace ((n / 262144 * 64 + n / 4096 mod 64) / 16) with (b2n a) by (subst n; lia). rewrite n2b_b2n. reflexivity.
  - pose proof (b2n_lt b) as Hb. set (n := b2n a * 65536 + b2n b * 256).
    assert (L1 : n / 262144 < 64) by (subst n; lia). assert (L2 : n / 4096 mod 64 < 64) by lia. assert (L3 : n / 64 mod 64 < 64) by lia.
    cbn [base64_decode]. destruct (sextet_char _ L1) as [-> _]. destruct (sextet_char _ L2) as [-> _]. destruct (sextet_char _ L3) as [-> ->].
    change (Byte.eqb (n2b 61) pad) with true. cbv iota zeta.
    replace (((n / 262144 * 64 + n / 4096 mod 64) * 64 + n / 64 mod 64) / 4) with (b2n a * 256 + b2n b) by (subst n; lia).
    replace ((b2n a * 256 + b2n b) / 256) with (b2n a) by lia. replace ((b2n a * 256 + b2n b) mod 256) with (b2n b) by lia.
    rewrite !n2b_b2n. reflexivity.
  - pose proof (b2n_lt b) as Hb. pose proof (b2n_lt c) as Hc. set (n := b2n a * 65536 + b2n b * 256 + b2n c).
    assert (L1 : n / 262144 < 64) by (subst n; lia). assert (L2 : n / 4096 mod 64 < 64) by lia. assert (L3 : n / 64 mod 64 < 64) by lia.
    assert (L4 : n mod 64 < 64) by lia.
    cbn [base64_decode]. destruct (sextet_char _ L1) as [-> _]. destruct (sextet_char _ L2) as [-> _]. destruct (sextet_char _ L3) as [-> ->].
    destruct (sextet_char _ L4) as [-> ->]. rewrite IH by (cbn in H; lia). cbv zeta.
    replace (((n / 262144 * 64 + n / 4096 mod 64) * 64 + n / 64 mod 64) * 64 + n mod 64) with n by lia.
    replace (n / 65536) with (b2n a) by (subst n; lia). replace (n / 256 mod 256) with (b2n b) by (subst n; lia).
    replace (n mod 256) with (b2n c) by (subst n; lia). rewrite !n2b_b2n. reflexivity.
Qed.

(** ** Objects in name order *)
Lemma name_lt_ltb a : forall b, bytes_ltb a b = true -> name_lt a b.
Proof.
  induction a as [|x a IH]; intros [|y b] H; try discriminate.
  - exists []. left. exists y, b. split; reflexivity.
  - cbn [bytes_ltb] in H. destruct (N.ltb_spec (b2n x) (b2n y)).
    + exists []. right. exists x, y, a, b. split; [assumption|]. split; reflexivity.
    + destruct (N.ltb_spec (b2n y) (b2n x)); [discriminate|]. assert (E : x = y) by (apply b2n_inj; lia). subst y.
      destruct (IH b H) as (p & [(z & t & -> & ->)|(u & v & s & t & L & -> & ->)]); exists (x :: p).
      * left. exists z, t. split; reflexivity.
      * right. exists u, v, s, t. split; [exact L|]. split; reflexivity.
Qed.
Lemma ltb_total a : forall b, a <> b -> bytes_ltb a b = false -> bytes_ltb b a = true.
Proof.
  induction a as [|x a IH]; intros [|y b] N H; cbn [bytes_ltb] in *; try discriminate; try reflexivity; [contradiction|].
  destruct (N.ltb_spec (b2n x) (b2n y)); [discriminate|]. destruct (N.ltb_spec (b2n y) (b2n x)); [reflexivity|].
  assert (E : x = y) by (apply b2n_inj; lia). subst y. apply IH; [intros ->; contradiction|exact H].
Qed.
Lemma name_lt_cases a b : name_lt a b <-> bytes_ltb a b = true.
Proof.
  split; [|apply name_lt_ltb]. intros (p & [(y & t & -> & ->)|(x & y & s & t & L & -> & ->)]); induction p as [|z p IH]; cbn [app bytes_ltb].
  - reflexivity.
  - destruct (N.ltb_spec (b2n z) (b2n z)); [lia|]. exact IH.
  - rewrite (proj2 (N.ltb_lt _ _) L). reflexivity.
  - destruct (N.ltb_spec (b2n z) (b2n z)); [lia|]. exact IH.
Qed.
Lemma ltb_trans a : forall b c, bytes_ltb a b = true -> bytes_ltb b c = true -> bytes_ltb a c = true.
Proof.
  induction a as [|x a IH]; intros [|y b] [|z c] H1 H2; cbn [bytes_ltb] in *; try discriminate; try reflexivity.
  destruct (N.ltb_spec (b2n x) (b2n z)); [reflexivity|].
  destruct (N.ltb_spec (b2n x) (b2n y)), (N.ltb_spec (b2n y) (b2n x)), (N.ltb_spec (b2n y) (b2n z)), (N.ltb_spec (b2n z) (b2n y)),
    (N.ltb_spec (b2n z) (b2n x)); try lia; try discriminate. eapply IH; eassumption.
Qed.
Lemma beqb_eq a : forall b, beqb a b = true -> a = b.
Proof.
  induction a as [|x a IH]; intros [|y b] H; try discriminate; [reflexivity|]. cbn in H. apply andb_prop in H as [H1 H2].
  apply byte_eqb_eq in H1. rewrite H1, (IH b H2). reflexivity.
Qed.
Lemma beqb_refl a : beqb a a = true.
Proof. induction a as [|x a IH]; [reflexivity|]. cbn. rewrite byte_eqb_refl, IH. reflexivity. Qed.
Notation sorted := (StronglySorted (fun p q : bytes * json_value => name_lt (fst p) (fst q))).
Lemma map_insert_ok k v m : ~ In k (map fst m) -> sorted m -> Permutation (map_insert k v m) ((k, v) :: m) /\ sorted (map_insert k v m).
Proof.
  intros N S. induction m as [|[k' v'] m IH].
  - split; [reflexivity|]. constructor; [constructor|constructor].
  - cbn [map_insert]. cbn [map fst In] in N. assert (Nk : k <> k') by (intros ->; apply N; left; reflexivity).
    rewrite beqb_neq by exact Nk. inversion S as [|? ? S' F]; subst. destruct (bytes_ltb k k') eqn:E.
    + split; [reflexivity|]. constructor; [exact S|]. constructor; [apply name_lt_ltb; exact E|].
      eapply Forall_impl; [|exact F]. intros [k2 v2] H. cbn [fst] in *. apply name_lt_cases in H. apply name_lt_cases.
      eapply ltb_trans; eassumption.
    + destruct IH as [P Q]; [intros K; apply N; right; exact K|exact S'|]. split.
      * rewrite P. apply perm_swap.
      * constructor; [exact Q|]. rewrite P. constructor; [|exact F]. apply name_lt_cases. apply ltb_total; [exact Nk|exact E].
Qed.

Lemma ltb_irrefl a : bytes_ltb a a = false.
Proof. induction a as [|x a IH]; [reflexivity|]. cbn. destruct (N.ltb_spec (b2n x) (b2n x)); [lia|exact IH]. Qed.
Lemma sorted_unique m m' : sorted m -> sorted m' -> Permutation m m' -> m = m'.
Proof.
  revert m'; induction m as [|a m IH]; intros m' S S' P.
  - apply Permutation_nil in P. subst. reflexivity.
  - destruct m' as [|b m']; [apply Permutation_sym, Permutation_nil in P; discriminate|].
    inversion S as [|? ? S1 F1]; subst. inversion S' as [|? ? S2 F2]; subst.
    assert (E : a = b).
    { assert (Ia : In a (b :: m')) by (rewrite <- P; left; reflexivity). assert (Ib : In b (a :: m)) by (rewrite P; left; reflexivity).
      destruct Ia as [Ia|Ia]; [symmetry; exact Ia|]. destruct Ib as [Ib|Ib]; [exact Ib|].
      rewrite Forall_forall in F1, F2. specialize (F1 _ Ib). specialize (F2 _ Ia). apply name_lt_cases in F1. apply name_lt_cases in F2.
      pose proof (ltb_trans _ _ _ F1 F2) as K. rewrite ltb_irrefl in K. discriminate. }
    subst b. f_equal. apply IH; [exact S1|exact S2|]. eapply Permutation_cons_inv. exact P.
Qed.

Section Json.
  Variable widen : N -> N.
  Variables fmt_f32 fmt_f64 : N -> bytes.

  Lemma finite_double_ok n : finite_double n -> finite64 n = true.
  Proof.
    unfold finite_double, finite64. intros H. apply negb_true_iff, N.eqb_neq. intros E. apply H.
    rewrite N.shiftr_div_pow2 in E. change 0x7ff with (N.ones 11) in E at 1. rewrite N.land_ones in E. exact E.
  Qed.
  Lemma json_int_logged u k n z : 1 <= k -> logged_int u k n z ->
    (if u then Z.of_N n else to_signed k (to_unsigned k (to_signed k n))) = z.
  Proof.
    intros Hk [-> Hn|z' -> Hn T]; [reflexivity|]. rewrite to_signed_unsigned; [|exact Hk|apply (to_signed_twos k n Hk Hn)].
    assert (Hk' : (1 <= Z.of_N k)%Z) by lia. apply (twos_unique _ _ _ _ Hk' (to_signed_twos k n Hk Hn) T).
  Qed.
  Lemma json_datetime_text t : calendar_date (dt_year t) (dt_month t) (dt_day t) -> dt_hour t < 24 -> dt_minute t < 60 -> dt_second t < 60 -> dt_micro t = 0 ->
    json_datetime (mk_dt (trunc 16 (dt_year t)) (trunc 8 (dt_month t)) (trunc 8 (dt_day t))
                      (trunc 8 (dt_hour t)) (trunc 8 (dt_minute t)) (trunc 8 (dt_second t)) 0) = text_datetime t.
  Proof.
    intros Hc Hh Hm Hs Hu. rewrite <- (proj1 (datetime_literal true t Hc Hh Hm Hs Hu)). unfold json_datetime, fmt_datetime.
    cbn [dt_year dt_month dt_day dt_hour dt_minute dt_second dt_micro]. change (0 =? 0) with true. cbv iota. rewrite app_nil_r. reflexivity.
  Qed.
  Lemma json_time_text t : stored_time 6 t -> json_time t = Ok (text_time (if t_micro t =? 0 then 0 else 6) t).
  Proof.
    intros S. destruct (time_literal true t S) as (s & E & Es & _). rewrite <- Es. destruct S as (_ & Hh & HH & _).
    unfold hours_of in HH. rewrite <- E. unfold json_time, lit_time. unfold cmul, cadd. change (2 ^ 32) with 4294967296.
    destruct (N.leb_spec 4294967296 (t_days t * 24)); [lia|]. cbn [rbind].
    destruct (N.leb_spec 4294967296 (t_days t * 24 + t_hour t)); [lia|]. cbn [rbind].
    assert (E1 : to_signed 32 (trunc 32 (t_days t)) = Z.of_N (t_days t)).
    { unfold to_signed, trunc. change (2 ^ (32 - 1)) with 2147483648. change (2 ^ 32) with 4294967296.
      rewrite N.mod_small by lia. destruct (N.ltb_spec (t_days t) 2147483648); [reflexivity|lia]. }
    rewrite E1. replace (Z.of_N (t_days t) * 24 + Z.of_N (t_hour t))%Z with (Z.of_N (t_days t * 24 + t_hour t)) by lia.
    change (2 ^ 31)%Z with 2147483648%Z. set (h := t_days t * 24 + t_hour t) in *.
    destruct (Z.ltb_spec (Z.of_N (t_days t) * 24) (- (2147483648))); [lia|].
    destruct (Z.leb_spec 2147483648 (Z.of_N (t_days t) * 24)); [lia|]. destruct (Z.leb_spec 2147483648 (Z.of_N h)); [lia|]. cbn [orb]. cbv zeta.
    assert (Eh : (if (100 <=? Z.of_N h)%Z then fmt_z (Z.of_N h) else fmt_padz 2 (Z.of_N h)) = fmt_pad 2 h).
    { destruct (Z.leb_spec 100 (Z.of_N h)).
      - unfold fmt_z. destruct (Z.ltb_spec (Z.of_N h) 0); [lia|]. replace (Z.abs_N (Z.of_N h)) with h by lia. unfold fmt_pad.
        assert (N3 : fmt_n h = digits 3 h).
        { apply (numeral_unique h); [apply fmt_n_numeral|]. exists 2%nat. split; [reflexivity|].
          change (10 ^ N.of_nat 3) with 1000. change (10 ^ N.of_nat 2) with 100. lia. }
        rewrite N3, digits_length. reflexivity.
      - unfold fmt_padz. destruct (Z.ltb_spec (Z.of_N h) 0); [lia|]. replace (Z.abs_N (Z.of_N h)) with h by lia. reflexivity. }
    rewrite Eh. unfold fmt_micro. destruct (t_neg t), (t_micro t =? 0); reflexivity.
  Qed.
  Lemma json_bit bs : forall i n, lit_bit_loop bs i n = json_bit_loop bs i n.
  Proof. induction bs as [|b bs IH]; intros i n; [reflexivity|]. cbn [lit_bit_loop json_bit_loop]. rewrite N.shiftl_mul_pow2. change (2 ^ 3) with 8.
    destruct (64 <=? i * 8); [reflexivity|]. destruct (cadd _ _ _); cbn [rbind]; [apply IH|reflexivity|reflexivity|reflexivity]. Qed.

  Theorem json_value_ok (u : bool) v x : logged fmt_f32 fmt_f64 u v x -> json_expressible widen v ->
    exists sv j b, sv_of_binlog v u = Ok sv /\ to_json_value widen sv = Ok (j, b) /\ json_means widen v x j /\
      if b then exists bs, x = VBinary bs else forall bs, x <> VBinary bs.
  Proof.
    intros L X.
    destruct L; cbn [json_expressible expressible] in X.
    - eexists _, _, false. split; [reflexivity|]. split; [reflexivity|]. split; [reflexivity|discriminate].
    - eexists _, (JInt z), false. split; [reflexivity|]. split; [|split; [reflexivity|discriminate]].
      rewrite <- (json_int_logged u 8 n z ltac:(lia) H). destruct u; reflexivity.
    - eexists _, (JInt z), false. split; [reflexivity|]. split; [|split; [reflexivity|discriminate]].
      rewrite <- (json_int_logged u 16 n z ltac:(lia) H). destruct u; reflexivity.
    - destruct H as [-> Hn|z -> Hn T].
      + eexists _, _, false. split; [reflexivity|]. split; [reflexivity|]. split; [reflexivity|discriminate].
      + destruct (sext24_text true n z Hn T) as (E & _). eexists _, (JInt z), false. split; [exact E|]. split; [|split; [reflexivity|discriminate]].
        unfold to_json_value, new_int, json_int. cbn [sv_val sv_unsigned]. rewrite to_signed_unsigned; [reflexivity|lia|]. destruct T as [T _]. cbn in T |- *. lia.
    - eexists _, (JInt z), false. split; [reflexivity|]. split; [|split; [reflexivity|discriminate]].
      rewrite <- (json_int_logged u 32 n z ltac:(lia) H). destruct u; reflexivity.
    - eexists _, (JInt z), false. split; [reflexivity|]. split; [|split; [reflexivity|discriminate]].
      rewrite <- (json_int_logged u 64 n z ltac:(lia) H). destruct u; reflexivity.
    - eexists _, _, false. split; [reflexivity|]. split; [cbn; rewrite finite_double_ok by exact X; reflexivity|]. split; [reflexivity|discriminate].
    - eexists _, _, false. split; [reflexivity|]. split; [cbn; rewrite finite_double_ok by exact X; reflexivity|]. split; [reflexivity|discriminate].
    - destruct (literal_reads fmt_f32 fmt_f64 true u (LNewDecimal d) (VNumber neg s)
        (lg_decimal _ _ _ d intg frac neg i f s H H0 H1 H2 H3) I) as (sv & s' & ts & E1 & E2 & _ & _).
      destruct (decimal_print intg frac neg i f [] H H0) as (d' & s0 & R & P & _ & I0). rewrite app_nil_r in R.
      rewrite R in H2. injection H2 as ->. apply I0 in H1. destruct H1 as (si & Ni & Es'). destruct H3 as (si' & Ni' & Es).
      rewrite (numeral_unique _ _ _ Ni' Ni) in Es. cbn [app] in Es.
      assert (E' : s0 = (if neg then [n2b 45] else []) ++ s) by (rewrite Es', Es; reflexivity).
      cbn [sv_of_binlog] in *. unfold new_mydecimal in *. rewrite P in *. cbn [rmap rbind] in *. injection E1 as <-.
      eexists _, _, false. split; [reflexivity|]. split; [|split; [|discriminate]].
      + unfold param_text, to_sql_literal in E2. cbn [sv_val] in E2. unfold to_json_value. cbn [sv_val].
        destruct (utf8_valid s0); [reflexivity|discriminate].
      + cbn. rewrite E'. reflexivity.
    - eexists _, _, false. split; [reflexivity|]. split; [|split; [|discriminate]].
      + rewrite timestamp_civil by assumption. unfold to_json_value, new_timestamp.
        cbn [sv_val ndt_date ndt_time nd_year nd_month nd_day nt_hour nt_minute nt_second]. rewrite json_datetime_text by assumption. reflexivity.
      + reflexivity.
    - destruct (calendar_small _ _ _ X) as (H1 & H2 & H3 & H4 & H5 & H6). eexists _, _, false.
      split; [cbn [sv_of_binlog]; rewrite from_ymd_ok by exact X; reflexivity|]. split; [|split; [|discriminate]].
      + unfold to_json_value, new_date. cbn [sv_val nd_year nd_month nd_day].
        unfold trunc. rewrite !N.mod_small, fmt_pad_4, !fmt_pad_2 by assumption. reflexivity.
      + reflexivity.
    - eexists _, _, false. split; [reflexivity|]. split; [|split; [|discriminate]].
      + unfold to_json_value, new_mytime. cbn [sv_val]. rewrite json_time_text by exact X. reflexivity.
      + reflexivity.
    - destruct X as (X1 & X2 & X3 & X4 & X5). eexists _, _, false.
      split; [cbn [sv_of_binlog]; rewrite from_ymd_ok by exact X1; cbn [rbind]; unfold and_hms_micro, valid_hms;
        rewrite (proj2 (N.ltb_lt _ _) X2), (proj2 (N.ltb_lt _ _) X3), (proj2 (N.ltb_lt _ _) X4), X5; reflexivity|].
      split; [|split; [|discriminate]].
      + unfold to_json_value, new_timestamp. cbn [sv_val ndt_date ndt_time nd_year nd_month nd_day nt_hour nt_minute nt_second].
        rewrite json_datetime_text by assumption. reflexivity.
      + reflexivity.
    - eexists _, _, false. split; [reflexivity|]. split; [reflexivity|]. split; [reflexivity|discriminate].
    - eexists _, (JInt (Z.of_N (be_val bs))), false. split; [reflexivity|]. split; [|split; [reflexivity|discriminate]].
      unfold to_json_value, new_bit. cbn [sv_val]. rewrite <- json_bit. change (lit_bit_loop bs 0 0) with (lit_bit_loop bs (N.of_nat 0) 0).
      destruct X as [Hl Hr].
      rewrite bit_loop; [|exact Hl|reflexivity]. cbn [rmap rbind].
      do 3 f_equal. f_equal. change (2 ^ (8 * N.of_nat 0)) with 1. unfold be_val. rewrite Hr. lia.
    - assert (E : enum_to_u64 e = n) by (repeat (destruct H as [<-|H]; [reflexivity|]); contradiction).
      eexists _, _, false. split; [reflexivity|]. split; [cbn; rewrite E; reflexivity|]. split; [reflexivity|discriminate].
    - eexists _, _, false. split; [reflexivity|]. split; [cbn; rewrite X; reflexivity|]. split; [reflexivity|discriminate].
    - eexists _, _, false. split; [reflexivity|]. split; [cbn; rewrite X; reflexivity|]. split; [reflexivity|discriminate].
    - eexists _, _, true. split; [reflexivity|]. split; [reflexivity|]. split; [|exists bs; reflexivity].
      exists (base64_encode bs). split; [apply (base64_round_trip (length bs)); lia|reflexivity].
  Qed.

  (** ** Rows *)
  Lemma json_cols_map l : forall m0 e1 e2 m1 m2 r1 r2,
    json_cols widen l m0 e1 = Ok (m1, r1) -> json_cols widen l m0 e2 = Ok (m2, r2) -> m1 = m2.
  Proof.
    induction l as [|[de c] l IH]; intros m0 e1 e2 m1 m2 r1 r2; cbn [json_cols].
    - intros A B. injection A as <- _. injection B as <- _. reflexivity.
    - destruct (sv_of_binlog c (f_unsigned de)) as [a| | |]; cbn [rbind]; try discriminate.
      destruct (to_json_value widen a); cbn [rbind]; try discriminate. apply IH.
  Qed.
  Lemma json_cols_ok ds vs xs : json_readable widen fmt_f32 fmt_f64 ds vs xs ->
    exists es ns, json_entries widen fmt_f32 fmt_f64 ds vs xs es /\ binary_names ds xs ns /\ map fst es = map cd_name ds /\ length ds = length vs /\
    forall m enc, NoDup (map fst m ++ map cd_name ds) -> sorted m ->
      exists m', json_cols widen (combine (map col_def_of ds) vs) m enc = Ok (m', enc ++ ns) /\ Permutation m' (m ++ es) /\ sorted m' /\
      exists ns', json_cols_after widen (combine (map col_def_of ds) vs) m enc = Ok (m', enc ++ ns') /\
        (NoDup enc -> merged enc ns (enc ++ ns')).
  Proof.
    induction 1 as [|d v x ds vs xs L X _ (es & ns & E1 & E2 & E3 & E4 & E5)].
    - exists [], []. split; [constructor|]. split; [constructor|]. split; [reflexivity|]. split; [reflexivity|]. intros m enc _ S.
      exists m. split; [cbn; rewrite app_nil_r; reflexivity|]. split; [rewrite app_nil_r; reflexivity|]. split; [exact S|].
      exists []. split; [cbn; rewrite app_nil_r; reflexivity|]. intros N. exists []. split; [reflexivity|]. rewrite app_nil_r.
      split; [exact N|]. intros n. cbn. tauto.
    - destruct (json_value_ok _ v x L X) as (sv & j & b & H1 & H2 & H3 & H4).
      exists ((cd_name d, j) :: es), (if b then cd_name d :: ns else ns). split; [constructor; assumption|]. split.
      { destruct b; [destruct H4 as (bs & ->); apply bn_binary; exact E2|apply bn_other; assumption]. }
      split; [cbn; rewrite E3; reflexivity|]. split; [cbn; lia|]. intros m enc N S.
      cbn [map combine json_cols json_cols_after]. rewrite unsigned_is, H1. cbn [rbind]. rewrite H2. cbn [rbind fst snd].
      change (f_name (col_def_of d)) with (cd_name d).
      assert (Nd : ~ In (cd_name d) (map fst m)).
      { intros K. cbn [map] in N. apply NoDup_remove_2 in N. apply N. apply in_app_iff. left. exact K. }
      destruct (map_insert_ok (cd_name d) j m Nd S) as [P Q].
      assert (N' : NoDup (map fst (map_insert (cd_name d) j m) ++ map cd_name ds)).
      { eapply Permutation_NoDup; [|exact N]. cbn [map]. rewrite <- Permutation_middle. rewrite P. reflexivity. }
      destruct (E5 _ (if b then enc ++ [cd_name d] else enc) N' Q) as (m' & F1 & F2 & F3 & _).
      exists m'. split; [rewrite F1; destruct b; [rewrite <- app_assoc|]; reflexivity|].
      split; [rewrite F2, P; cbn [app]; rewrite <- Permutation_middle; reflexivity|]. split; [exact F3|].
      set (enc' := if b && negb (existsb (beqb (cd_name d)) enc) then enc ++ [cd_name d] else enc).
      destruct (E5 _ enc' N' Q) as (m'' & G1 & _ & _ & ns' & G2 & G3).
      assert (Em : m'' = m').
      { eapply json_cols_map; eassumption. }
      subst m''.
      assert (Ie : existsb (beqb (cd_name d)) enc = true <-> In (cd_name d) enc).
      { split; [intros K; apply existsb_exists in K as (n & Hn & K); apply beqb_eq in K; subst n; exact Hn|].
        intros K. apply existsb_exists. exists (cd_name d). split; [exact K|apply beqb_refl]. }
      subst enc'. destruct b; cbn [andb] in *.
      + destruct (existsb (beqb (cd_name d)) enc) eqn:Ex; cbn [negb] in *.
        * exists ns'. split; [rewrite G2; reflexivity|]. intros Ne. destruct (G3 Ne) as (c & Ec & Nc & Ic). exists c.
          split; [exact Ec|]. split; [exact Nc|]. intros n. rewrite Ic. cbn [In].
          split; [tauto|]. intros [K|[K|K]]; [tauto| |tauto]. left. subst n. apply Ie. reflexivity.
        * exists (cd_name d :: ns'). split; [rewrite G2; rewrite <- app_assoc; reflexivity|]. intros Ne.
          assert (Ne' : NoDup (enc ++ [cd_name d])).
          { eapply Permutation_NoDup; [apply Permutation_cons_append|]. constructor; [|exact Ne]. intros K. apply Ie in K. rewrite K in Ex. discriminate. }
          destruct (G3 Ne') as (c & Ec & Nc & Ic). rewrite <- app_assoc in *. cbn [app] in *. exists (cd_name d :: ns').
          split; [reflexivity|]. split; [exact Nc|]. intros n. rewrite Ic. rewrite in_app_iff. cbn [In]. tauto.
      + exists ns'. split; [rewrite G2; reflexivity|]. exact G3.
  Qed.
  Lemma NoDup_firstn {A} (l : list A) : NoDup l -> forall k, NoDup (firstn k l).
  Proof.
    induction 1 as [|a l Na _ IH]; intros [|k]; cbn; constructor; [|apply IH]. intros K. apply Na.
    rewrite <- (firstn_skipn k l). apply in_app_iff. left. exact K.
  Qed.
  Lemma binary_names_nodup ds xs ns : binary_names ds xs ns -> NoDup (map cd_name ds) -> NoDup ns /\ incl ns (map cd_name ds).
  Proof.
    induction 1 as [|d bs ds xs ns _ IH|d x ds xs ns _ _ IH]; intros N.
    - split; [constructor|intros ? []].
    - inversion N as [|? ? N1 N2]; subst. destruct (IH N2) as [H1 H2]. split; [constructor; [intros K; apply N1, H2, K|exact H1]|].
      intros n [<-|K]; [left; reflexivity|right; apply H2, K].
    - inversion N as [|? ? N1 N2]; subst. destruct (IH N2) as [H1 H2]. split; [exact H1|]. intros n K. right. apply H2, K.
  Qed.
  Lemma json_row_first k ds row xs : NoDup (map cd_name ds) -> json_readable widen fmt_f32 fmt_f64 (firstn k ds) (firstn k row) xs ->
    exists m ns, row_object widen fmt_f32 fmt_f64 (firstn k ds) (firstn k row) xs m /\ binary_names (firstn k ds) xs ns /\ NoDup ns /\
      json_cols widen (combine (map col_def_of (firstn k ds)) row) [] [] = Ok (m, ns) /\
      forall enc, NoDup enc -> exists l, json_cols_after widen (combine (map col_def_of (firstn k ds)) row) [] enc = Ok (m, l) /\ merged enc ns l.
  Proof.
    intros N H. assert (N' : NoDup (map cd_name (firstn k ds))) by (rewrite <- firstn_map; apply NoDup_firstn; exact N).
    destruct (json_cols_ok _ _ _ H) as (es & ns & E1 & E2 & E3 & E4 & E5).
    rewrite (combine_firstn (map col_def_of (firstn k ds)) row k) by (rewrite map_length; exact E4).
    assert (S0 : sorted []) by constructor.
    destruct (E5 [] [] N' S0) as (m & F1 & F2 & F3 & _). exists m, ns.
    split; [exists es; split; [exact E1|split; assumption]|]. split; [exact E2|]. split; [apply (binary_names_nodup _ _ _ E2 N')|].
    split; [exact F1|]. intros enc Ne. destruct (E5 [] enc N' S0) as (m' & G1 & G2 & G3 & ns' & G4 & G5).
    exists (enc ++ ns'). split; [|apply G5; exact Ne]. rewrite G4. f_equal. f_equal.
    eapply sorted_unique; [exact G3|exact F3|]. rewrite G2, F2. reflexivity.
  Qed.
  Theorem insert_json db tbl r defs k xss : NoDup (map cd_name defs) -> first_present (length defs) k (r_present_bitmap r) ->
    Forall2 (fun row xs => json_readable widen fmt_f32 fmt_f64 (firstn k defs) (firstn k row) xs) (r_rows r) xss ->
    exists docs, json_from_insert widen db tbl r defs = Ok docs /\
      forall3 (fun row xs doc => json_insert widen fmt_f32 fmt_f64 db tbl (firstn k defs) (firstn k row) xs doc) (r_rows r) xss docs.
  Proof.
    intros N Hp Hr. unfold json_from_insert. rewrite (filter_cols_first _ _ _ Hp). cbn [rbind].
    induction Hr as [|row xs rows xss H _ (docs & IH1 & IH2)]; [exists []; split; [reflexivity|constructor]|].
    destruct (json_row_first _ _ _ _ N H) as (m & ns & E1 & E2 & E3 & E4 & _).
    cbn [map sequence]. rewrite E4. cbn [rmap rbind fst snd]. rewrite IH1. cbn [rbind]. eexists. split; [reflexivity|].
    constructor; [|exact IH2]. exists m. split; [reflexivity|]. split; assumption.
  Qed.
  Theorem delete_json db tbl r defs k xss : NoDup (map cd_name defs) -> first_present (length defs) k (r_present_bitmap r) ->
    Forall2 (fun row xs => json_readable widen fmt_f32 fmt_f64 (firstn k defs) (firstn k row) xs) (r_rows r) xss ->
    exists docs, json_from_delete widen db tbl r defs = Ok docs /\
      forall3 (fun row xs doc => json_delete widen fmt_f32 fmt_f64 db tbl (firstn k defs) (firstn k row) xs doc) (r_rows r) xss docs.
  Proof.
    intros N Hp Hr. unfold json_from_delete. rewrite (filter_cols_first _ _ _ Hp). cbn [rbind].
    induction Hr as [|row xs rows xss H _ (docs & IH1 & IH2)]; [exists []; split; [reflexivity|constructor]|].
    destruct (json_row_first _ _ _ _ N H) as (m & ns & E1 & E2 & E3 & E4 & _).
    cbn [map sequence]. rewrite E4. cbn [rmap rbind fst snd]. rewrite IH1. cbn [rbind]. eexists. split; [reflexivity|].
    constructor; [|exact IH2]. exists m. split; [reflexivity|]. split; assumption.
  Qed.
  Theorem update_json db tbl u defs k k' xss : NoDup (map cd_name defs) ->
    first_present (length defs) k (u_before_present_bitmap u) -> first_present (length defs) k' (u_after_present_bitmap u) ->
    Forall2 (fun row xs => json_readable widen fmt_f32 fmt_f64 (firstn k defs) (firstn k (fst row)) (fst xs) /\
                           json_readable widen fmt_f32 fmt_f64 (firstn k' defs) (firstn k' (snd row)) (snd xs)) (u_rows u) xss ->
    exists docs, json_from_update widen db tbl u defs = Ok docs /\
      forall3 (fun row xs doc => json_update widen fmt_f32 fmt_f64 db tbl
                 (firstn k defs) (firstn k (fst row)) (fst xs) (firstn k' defs) (firstn k' (snd row)) (snd xs) doc) (u_rows u) xss docs.
  Proof.
    intros N Hp Hp' Hr. unfold json_from_update. rewrite (filter_cols_first _ _ _ Hp), (filter_cols_first _ _ _ Hp'). cbn [rbind].
    induction Hr as [|row xs rows xss [H H'] _ (docs & IH1 & IH2)]; [exists []; split; [reflexivity|constructor]|].
    destruct (json_row_first _ _ _ _ N H) as (m & ns & E1 & E2 & E3 & E4 & _).
    destruct (json_row_first _ _ _ _ N H') as (m' & ns' & E1' & E2' & E3' & _ & E4').
    destruct (E4' ns E3) as (l & E5 & E6).
    cbn [map sequence]. rewrite E4. cbn [rbind fst snd]. rewrite E5. cbn [rbind fst snd]. rewrite IH1. cbn [rbind]. eexists. split; [reflexivity|].
    constructor; [|exact IH2]. exists m, m', ns, ns'. split; [reflexivity|]. split; [exact E1|]. split; [exact E1'|]. split; [exact E2|]. split; [exact E2'|]. exact E6.
  Qed.

  (** ** Findings *)
  Definition json_of (v : binlog_value) (u : bool) : res (json_value * bool) := rbind (sv_of_binlog v u) (to_json_value widen).
  Lemma not_finite n : ~ finite_double n -> finite64 n = false.
  Proof.
    unfold finite_double, finite64. intros H. apply negb_false_iff, N.eqb_eq.
    rewrite N.shiftr_div_pow2. change 0x7ff with (N.ones 11) at 1. rewrite N.land_ones.
    destruct (N.eq_dec (n / 2 ^ 52 mod 2 ^ 11) 2047) as [E|E]; [exact E|contradiction].
  Qed.
  Lemma json_not_finite n u : ~ finite_double n -> json_of (LDouble n) u = Panic PUnwrap.
  Proof. intros H. cbn. rewrite not_finite by exact H. reflexivity. Qed.
  Lemma json_not_finite32 n u : ~ finite_double (widen n) -> json_of (LFloat n) u = Panic PUnwrap.
  Proof. intros H. cbn. rewrite not_finite by exact H. reflexivity. Qed.
  Lemma json_invalid_utf8 bs u : utf8_valid bs = false -> json_of (LString bs) u = Panic PUnwrap /\ json_of (LVarString bs) u = Panic PUnwrap.
  Proof. intros H. cbn. rewrite H. split; reflexivity. Qed.
  Lemma json_bit_order bs u : (length bs <= 8)%nat -> json_of (LBit bs) u = Ok (JInt (Z.of_N (le_val bs)), false).
  Proof.
    intros H. unfold json_of, to_json_value. cbn [sv_of_binlog rbind]. unfold new_bit. cbn [sv_val]. rewrite <- json_bit.
    change (lit_bit_loop bs 0 0) with (lit_bit_loop bs (N.of_nat 0) 0). rewrite bit_loop; [|exact H|reflexivity]. cbn [rmap rbind].
    do 3 f_equal. f_equal. change (2 ^ (8 * N.of_nat 0)) with 1. lia.
  Qed.
  Lemma json_bit_wide bs u : (8 < length bs)%nat -> json_of (LBit bs) u = Panic PArith.
  Proof.
    intros H. pose proof (bit_wide fmt_f32 fmt_f64 bs u H) as K. unfold literal_of, param_text, to_sql_literal in K. cbn [sv_of_binlog rbind sv_val new_bit] in K.
    unfold json_of, to_json_value. cbn [sv_of_binlog rbind sv_val new_bit]. rewrite <- json_bit.
    destruct (lit_bit_loop bs 0 0); cbn in K |- *; try discriminate; injection K as ->; reflexivity.
  Qed.
  Lemma json_datetime_fraction t u : calendar_date (dt_year t) (dt_month t) (dt_day t) -> dt_hour t < 24 -> dt_minute t < 60 -> dt_second t < 60 -> dt_micro t < 1000000 ->
    json_of (LDateTime t) u = Ok (JString (text_datetime (whole t)), false).
  Proof.
    intros Hc Hh Hm Hs Hu. unfold json_of. cbn [sv_of_binlog]. rewrite from_ymd_ok by exact Hc. cbn [rbind]. unfold and_hms_micro, valid_hms.
    assert (Hu' : dt_micro t < 2000000) by lia.
    rewrite (proj2 (N.ltb_lt _ _) Hh), (proj2 (N.ltb_lt _ _) Hm), (proj2 (N.ltb_lt _ _) Hs), (proj2 (N.ltb_lt _ _) Hu'). cbn [andb rmap rbind].
    unfold to_json_value, new_timestamp. cbn [sv_val ndt_date ndt_time nd_year nd_month nd_day nt_hour nt_minute nt_second].
    pose proof (json_datetime_text (whole t) Hc Hh Hm Hs eq_refl) as E. unfold whole in E at 1 2 3 4 5 6.
    cbn [dt_year dt_month dt_day dt_hour dt_minute dt_second dt_micro] in E. rewrite E. reflexivity.
  Qed.
  Lemma json_zero_date y m d u : ~ (1 <= m <= 12 /\ 1 <= d <= month_days y m) -> json_of (LDate y m d) u = Panic PUnwrap.
  Proof. intros H. unfold json_of. cbn [sv_of_binlog]. rewrite (from_ymd_bad fmt_f32 fmt_f64) by exact H. reflexivity. Qed.
  Lemma json_zero_datetime t u : ~ (1 <= dt_month t <= 12 /\ 1 <= dt_day t <= month_days (dt_year t) (dt_month t)) ->
    json_of (LDateTime t) u = Panic PUnwrap.
  Proof. intros H. unfold json_of. cbn [sv_of_binlog]. rewrite (from_ymd_bad fmt_f32 fmt_f64) by exact H. reflexivity. Qed.
  Lemma json_geometry bs u : json_of (LGeometry bs) u = Panic PUnimplemented.
  Proof. reflexivity. Qed.
End Json.
