(** * Proofs about fixed width codecs *)
From Verif Require Import Model.Base Model.BytesParser Spec.Nums Spec.Codec
  Proofs.BaseLemmas Proofs.BytesParserProofs.
Open Scope N_scope.

Lemma reads_unsigned_le k read :
  (forall rest a, length a = k -> read (a ++ rest) = (Ok (le_val a), rest)) ->
  reads k means_le read.
Proof. intros H a rest Ha. exists (le_val a). split; [apply H; assumption|reflexivity]. Qed.

Lemma reads_unsigned_be k read :
  (forall rest a, length a = k -> read (a ++ rest) = (Ok (be_val a), rest)) ->
  reads k means_be read.
Proof. intros H a rest Ha. exists (be_val a). split; [apply H; assumption|reflexivity]. Qed.

Lemma pow256 k : 256 ^ k = 2 ^ (8 * k).
Proof. rewrite N.pow_mul_r. reflexivity. Qed.

Lemma to_le_bytes_mod k n : n < 2 ^ (8 * N.of_nat k) -> le_val (to_le_bytes k n) = n.
Proof. intros H. rewrite le_val_to_le_bytes, pow256. apply N.mod_small. assumption. Qed.

Lemma codec_unsigned k read write :
  (forall rest a, length a = k -> read (a ++ rest) = (Ok (le_val a), rest)) ->
  (forall n, write n = to_le_bytes k n) ->
  codec k (unsigned (8 * N.of_nat k)) means_le write read.
Proof.
  intros Hr Hw. split; [|split].
  - intros v rest Hv. rewrite Hw. assert (L := to_le_bytes_length k v).
    assert (E := to_le_bytes_mod k v Hv).
    split; [assumption|]. split; [symmetry; exact E|]. rewrite Hr, E by assumption. reflexivity.
  - apply reads_unsigned_le. assumption.
  - intros a v rest Ha H. rewrite Hr in H by assumption. injection H as <-. split.
    + unfold unsigned. rewrite <- pow256, <- Ha. apply le_val_bound.
    + rewrite Hw, <- Ha. apply to_le_bytes_le_val.
Qed.

Lemma codec_signed k read write :
  (1 <= k)%nat ->
  (forall rest a, length a = k -> exists v, read (a ++ rest) = (Ok v, rest) /\ twos (8 * Z.of_nat k) (le_val a) v) ->
  (forall z, signed (8 * Z.of_nat k) z -> write z = to_le_bytes k (to_unsigned (8 * N.of_nat k) z)) ->
  codec k (signed (8 * Z.of_nat k)) (means_sle (8 * Z.of_nat k)) write read.
Proof.
  intros Hk Hr Hw.
  assert (Hm : forall z, signed (8 * Z.of_nat k) z -> length (write z) = k /\ twos (8 * Z.of_nat k) (le_val (write z)) z).
  { intros z Hz. rewrite Hw by assumption. split; [apply to_le_bytes_length|].
    rewrite to_le_bytes_mod by apply to_unsigned_bound.
    split; [exact Hz|]. unfold to_unsigned.
    replace (Z.of_N (8 * N.of_nat k)) with (8 * Z.of_nat k)%Z by lia.
    assert (0 < 2 ^ (8 * Z.of_nat k))%Z by (apply Z.pow_pos_nonneg; lia).
    pose proof (Z.mod_pos_bound z (2 ^ (8 * Z.of_nat k))%Z ltac:(lia)).
    rewrite Z2N.id by lia. rewrite Z.mod_mod by lia. reflexivity. }
  split; [|split].
  - intros v rest Hv. destruct (Hm v Hv) as [H1 H2]. split; [assumption|]. split; [assumption|].
    destruct (Hr rest (write v) H1) as (v' & -> & H3).
    rewrite (twos_unique (8 * Z.of_nat k) _ v v' ltac:(lia) H2 H3). reflexivity.
  - intros a rest Ha. apply Hr. assumption.
  - intros a v rest Ha H. destruct (Hr rest a Ha) as (v' & H1 & H2). rewrite H in H1.
    injection H1 as ->. split; [apply H2|].
    destruct (Hm v' (proj1 H2)) as [L1 T1].
    apply le_val_inj; [congruence|].
    destruct H2 as [_ H2], T1 as [_ T1]. rewrite T1 in H2.
    assert (B1 := le_val_bound a). assert (B2 := le_val_bound (write v')).
    rewrite L1 in B2. rewrite Ha in B1. rewrite pow256 in B1, B2.
    assert (P : Z.of_N (2 ^ (8 * N.of_nat k)) = (2 ^ (8 * Z.of_nat k))%Z).
    { rewrite N2Z.inj_pow. f_equal; lia. }
    rewrite !Z.mod_small in H2 by lia. lia.
Qed.

Lemma reads_signed_cast k (rd : parser N) val :
  (1 <= k)%nat ->
  (forall rest a, length a = k -> rd (a ++ rest) = (Ok (val a), rest)) ->
  (forall a, length a = k -> val a < 256 ^ N.of_nat k) ->
  forall rest a, length a = k ->
    exists v, pmap (to_signed (8 * N.of_nat k)) rd (a ++ rest) = (Ok v, rest) /\ twos (8 * Z.of_nat k) (val a) v.
Proof.
  intros Hk Hr Hb rest a Ha. eexists. split; [apply pmap_ok, Hr; assumption|].
  replace (8 * Z.of_nat k)%Z with (Z.of_N (8 * N.of_nat k)) by lia.
  apply to_signed_twos; [lia|]. rewrite <- pow256. apply Hb. assumption.
Qed.

(** ** bit tricks of the 24 and 48 bit codecs *)
Lemma land_pow2_zero n k : n < 2 ^ (k + 1) -> (N.land n (2 ^ k) =? 0) = (n <? 2 ^ k).
Proof.
  intros Hn.
  assert (E : N.land n (2 ^ k) = if N.testbit n k then 2 ^ k else 0).
  { apply N.bits_inj. intros i. rewrite N.land_spec.
    destruct (N.eq_dec i k) as [->|Hi].
    - rewrite N.pow2_bits_true. destruct (N.testbit n k); [symmetry; apply N.pow2_bits_true|].
      rewrite N.bits_0. reflexivity.
    - rewrite N.pow2_bits_false by congruence. rewrite andb_false_r.
      destruct (N.testbit n k); [rewrite N.pow2_bits_false by congruence|rewrite N.bits_0]; reflexivity. }
  rewrite E. rewrite N.testbit_eqb.
  rewrite N.add_1_r, N.pow_succ_r' in Hn.
  assert (P : 0 < 2 ^ k) by (apply N.neq_0_lt_0, N.pow_nonzero; discriminate).
  destruct (N.ltb_spec n (2 ^ k)) as [H|H].
  - rewrite N.div_small by assumption. reflexivity.
  - assert (Hd : n / 2 ^ k = 1).
    { symmetry. apply (N.div_unique n (2 ^ k) 1 (n - 2 ^ k)); lia. }
    rewrite Hd. cbn [N.eqb Pos.eqb N.modulo]. change (1 mod 2 =? 1) with true. cbn iota.
    apply N.eqb_neq. lia.
Qed.

Lemma lor_disjoint a b k : a < 2 ^ k -> N.lor a (b * 2 ^ k) = a + b * 2 ^ k.
Proof.
  intros Ha. rewrite <- N.shiftl_mul_pow2.
  assert (H : N.land a (N.shiftl b k) = 0).
  { apply N.bits_inj. intros i. rewrite N.land_spec, N.bits_0.
    destruct (N.ltb_spec i k).
    - rewrite N.shiftl_spec_low by assumption. apply andb_false_r.
    - replace a with (a mod 2 ^ k) by (apply N.mod_small; assumption).
      rewrite N.mod_pow2_bits_high by assumption. reflexivity. }
  rewrite <- N.lxor_lor by assumption. symmetry. apply N.add_nocarry_lxor. assumption.
Qed.

Lemma twos_sext k w n : 1 <= k -> k < w -> n < 2 ^ k ->
  twos (Z.of_N k) n (if negb (N.land n (2 ^ (k - 1)) =? 0)
                     then to_signed w (N.lor n ((2 ^ (w - k) - 1) * 2 ^ k)) else to_signed w n).
Proof.
  intros Hk Hw Hn.
  rewrite land_pow2_zero by (rewrite N.sub_add; assumption).
  assert (E : 2 ^ k = 2 * 2 ^ (k - 1)) by (rewrite <- N.pow_succ_r'; f_equal; lia).
  assert (Ew : 2 ^ w = 2 * 2 ^ (w - 1)) by (rewrite <- N.pow_succ_r'; f_equal; lia).
  assert (Ewk : 2 ^ w = 2 ^ (w - k) * 2 ^ k) by (rewrite <- N.pow_add_r; f_equal; lia).
  assert (Ek1 : Z.of_N (2 ^ (k - 1)) = (2 ^ (Z.of_N k - 1))%Z) by (rewrite N2Z.inj_pow; f_equal; lia).
  assert (Ek : Z.of_N (2 ^ k) = (2 ^ (Z.of_N k))%Z) by (rewrite N2Z.inj_pow; f_equal; lia).
  assert (EwZ : Z.of_N (2 ^ w) = (2 ^ (Z.of_N w))%Z) by (rewrite N2Z.inj_pow; f_equal; lia).
  assert (L1 : 2 ^ k <= 2 ^ (w - 1)) by (apply N.pow_le_mono_r; lia).
  assert (P : 0 < 2 ^ (k - 1)) by (apply N.neq_0_lt_0, N.pow_nonzero; discriminate).
  assert (Q : 2 <= 2 ^ (w - k)) by (change 2 with (2 ^ 1) at 1; apply N.pow_le_mono_r; lia).
  assert (Sum : (2 ^ (w - k) - 1) * 2 ^ k = 2 ^ w - 2 ^ k).
  { rewrite N.mul_sub_distr_r, <- Ewk, N.mul_1_l. reflexivity. }
  unfold twos. destruct (N.ltb_spec n (2 ^ (k - 1))); cbn [negb].
  - unfold to_signed. destruct (N.ltb_spec n (2 ^ (w - 1))); [|lia]. split; [lia|reflexivity].
  - rewrite lor_disjoint by assumption. rewrite Sum. unfold to_signed.
    destruct (N.ltb_spec (n + (2 ^ w - 2 ^ k)) (2 ^ (w - 1))); [lia|].
    assert (V : (Z.of_N (n + (2 ^ w - 2 ^ k)) - 2 ^ Z.of_N w = Z.of_N n - 2 ^ Z.of_N k)%Z) by lia.
    rewrite V. split; [lia|].
    rewrite <- (Z.mod_add (Z.of_N n) (-1) (2 ^ Z.of_N k)) by lia. f_equal; lia.
Qed.

Lemma sext24_twos n : n < 2 ^ 24 -> twos 24 n (sext24 n).
Proof. intros H. exact (twos_sext 24 32 n ltac:(lia) ltac:(lia) H). Qed.

(** the OR with the sign bits is a no-op on negative numbers in range *)
Lemma lor_high_noop x b k : x < (b + 1) * 2 ^ k -> b * 2 ^ k <= x -> N.lor x (b * 2 ^ k) = x.
Proof.
  intros H1 H2.
  assert (E : x = N.lor (x - b * 2 ^ k) (b * 2 ^ k)) by (rewrite lor_disjoint; lia).
  rewrite E at 1. rewrite <- N.lor_assoc, N.lor_diag. symmetry; exact E.
Qed.

Lemma to_unsigned_neg k z : (- 2 ^ Z.of_N k <= z < 0)%Z -> Z.of_N (to_unsigned k z) = (z + 2 ^ Z.of_N k)%Z.
Proof.
  intros H. unfold to_unsigned.
  assert (0 < 2 ^ Z.of_N k)%Z by (apply Z.pow_pos_nonneg; lia).
  rewrite <- (Z.mod_add z 1) by lia. rewrite Z.mod_small by lia. rewrite Z2N.id by lia. lia.
Qed.
Lemma to_unsigned_pos k z : (0 <= z < 2 ^ Z.of_N k)%Z -> Z.of_N (to_unsigned k z) = z.
Proof. intros H. unfold to_unsigned. rewrite Z.mod_small by lia. rewrite Z2N.id by lia. reflexivity. Qed.

Lemma to_le_bytes_congr k m n : m mod 256 ^ N.of_nat k = n mod 256 ^ N.of_nat k -> to_le_bytes k m = to_le_bytes k n.
Proof.
  intros H. apply le_val_inj; [rewrite !to_le_bytes_length; reflexivity|].
  rewrite !le_val_to_le_bytes. exact H.
Qed.

Lemma to_unsigned_narrow k w z : k <= w -> to_unsigned w z mod 2 ^ k = to_unsigned k z.
Proof.
  intros H. unfold to_unsigned. apply N2Z.inj.
  assert (0 < 2 ^ Z.of_N k)%Z by (apply Z.pow_pos_nonneg; lia).
  assert (0 < 2 ^ Z.of_N w)%Z by (apply Z.pow_pos_nonneg; lia).
  pose proof (Z.mod_pos_bound z (2 ^ Z.of_N w)%Z ltac:(lia)).
  pose proof (Z.mod_pos_bound z (2 ^ Z.of_N k)%Z ltac:(lia)).
  rewrite N2Z.inj_mod, N2Z.inj_pow, !Z2N.id by lia. change (Z.of_N 2) with 2%Z.
  symmetry. apply Znumtheory.Zmod_div_mod; try lia.
  exists (2 ^ (Z.of_N w - Z.of_N k))%Z. rewrite <- Z.pow_add_r by lia. f_equal; lia.
Qed.

Lemma write_le_i24_spec z : signed 24 z -> write_le_i24 z = to_le_bytes 3 (to_unsigned 24 z).
Proof.
  unfold signed. intros H. unfold write_le_i24. rewrite firstn_to_le_bytes by lia.
  apply to_le_bytes_congr. change (256 ^ N.of_nat 3) with (2 ^ 24).
  rewrite (N.mod_small (to_unsigned 24 z)) by apply to_unsigned_bound.
  destruct (Z.ltb_spec z 0).
  - assert (U := to_unsigned_neg 32 z ltac:(lia)).
    change 0xff800000 with (511 * 2 ^ 23). rewrite lor_high_noop by lia.
    apply to_unsigned_narrow. lia.
  - apply to_unsigned_narrow. lia.
Qed.

Lemma write_le_i48_spec z : signed 48 z -> write_le_i48 z = to_le_bytes 6 (to_unsigned 48 z).
Proof.
  unfold signed. intros H. unfold write_le_i48. rewrite firstn_to_le_bytes by lia.
  apply to_le_bytes_congr. change (256 ^ N.of_nat 6) with (2 ^ 48).
  rewrite (N.mod_small (to_unsigned 48 z)) by apply to_unsigned_bound.
  destruct (Z.ltb_spec z 0).
  - assert (U := to_unsigned_neg 64 z ltac:(lia)).
    change 0xffff800000000000 with (131071 * 2 ^ 47). rewrite lor_high_noop by lia.
    apply to_unsigned_narrow. lia.
  - apply to_unsigned_narrow. lia.
Qed.

Lemma le_val_bound_k k a : length a = k -> le_val a < 256 ^ N.of_nat k.
Proof. intros <-. apply le_val_bound. Qed.
Lemma be_val_bound_k k a : length a = k -> be_val a < 256 ^ N.of_nat k.
Proof. intros <-. apply be_val_bound. Qed.

(** ** Property level lemmas *)
Lemma unsigned_le_codecs :
  codec 1 (unsigned 8) means_le write_u8 read_u8 /\
  codec 2 (unsigned 16) means_le write_le_u16 read_le_u16 /\
  codec 3 (unsigned 24) means_le write_le_u24 read_le_u24 /\
  codec 4 (unsigned 32) means_le write_le_u32 read_le_u32 /\
  codec 6 (unsigned 48) means_le write_le_u48 read_le_u48 /\
  codec 8 (unsigned 64) means_le write_le_u64 read_le_u64 /\
  codec 16 (unsigned 128) means_le write_le_u128 read_le_u128.
Proof.
  splits.
  - apply (codec_unsigned 1); [apply read_u8_spec|reflexivity].
  - apply (codec_unsigned 2); [apply read_le_u16_spec|reflexivity].
  - apply (codec_unsigned 3); [apply read_le_u24_spec|reflexivity].
  - apply (codec_unsigned 4); [apply read_le_u32_spec|reflexivity].
  - apply (codec_unsigned 6); [apply read_le_u48_spec|reflexivity].
  - apply (codec_unsigned 8); [apply read_le_u64_spec|reflexivity].
  - apply (codec_unsigned 16); [apply read_le_u128_spec|reflexivity].
Qed.

Lemma float_codecs :
  codec 4 (unsigned 32) means_le write_le_f32 read_le_f32 /\
  codec 8 (unsigned 64) means_le write_le_f64 read_le_f64.
Proof.
  split.
  - apply (codec_unsigned 4); [apply read_le_f32_spec|reflexivity].
  - apply (codec_unsigned 8); [apply read_le_f64_spec|reflexivity].
Qed.

Lemma signed_le_codecs :
  codec 1 (signed 8) (means_sle 8) write_i8 read_i8 /\
  codec 2 (signed 16) (means_sle 16) write_le_i16 read_le_i16 /\
  codec 3 (signed 24) (means_sle 24) write_le_i24 read_le_i24 /\
  codec 4 (signed 32) (means_sle 32) write_le_i32 read_le_i32 /\
  codec 6 (signed 48) (means_sle 48) write_le_i48 read_le_i48 /\
  codec 8 (signed 64) (means_sle 64) write_le_i64 read_le_i64 /\
  codec 16 (signed 128) (means_sle 128) write_le_i128 read_le_i128.
Proof.
  splits.
  - apply (codec_signed 1); [lia| |reflexivity].
    apply (reads_signed_cast 1 read_u8 le_val); [lia|apply read_u8_spec|apply le_val_bound_k].
  - apply (codec_signed 2); [lia| |reflexivity].
    apply (reads_signed_cast 2 read_le_u16 le_val); [lia|apply read_le_u16_spec|apply le_val_bound_k].
  - apply (codec_signed 3); [lia| |apply write_le_i24_spec].
    intros rest a Ha. eexists. split; [apply pmap_ok, read_le_u24_spec, Ha|].
    apply sext24_twos. exact (le_val_bound_k 3 a Ha).
  - apply (codec_signed 4); [lia| |reflexivity].
    apply (reads_signed_cast 4 read_le_u32 le_val); [lia|apply read_le_u32_spec|apply le_val_bound_k].
  - apply (codec_signed 6); [lia| |apply write_le_i48_spec].
    intros rest a Ha. eexists. split; [apply pmap_ok, read_le_u48_spec, Ha|].
    exact (twos_sext 48 64 (le_val a) ltac:(lia) ltac:(lia) (le_val_bound_k 6 a Ha)).
  - apply (codec_signed 8); [lia| |reflexivity].
    apply (reads_signed_cast 8 read_le_u64 le_val); [lia|apply read_le_u64_spec|apply le_val_bound_k].
  - apply (codec_signed 16); [lia| |reflexivity].
    apply (reads_signed_cast 16 read_le_u128 le_val); [lia|apply read_le_u128_spec|apply le_val_bound_k].
Qed.

Lemma be_readers :
  reads 2 means_be read_be_u16 /\ reads 3 means_be read_be_u24 /\
  reads 4 means_be read_be_u32 /\ reads 5 means_be read_be_u40 /\
  reads 2 (means_sbe 16) read_be_i16 /\ reads 4 (means_sbe 32) read_be_i32.
Proof.
  splits.
  - apply reads_unsigned_be, read_be_u16_spec.
  - apply reads_unsigned_be, read_be_u24_spec.
  - apply reads_unsigned_be, read_be_u32_spec.
  - apply reads_unsigned_be, read_be_u40_spec.
  - intros a rest Ha. revert rest a Ha.
    apply (reads_signed_cast 2 read_be_u16 be_val); [lia|apply read_be_u16_spec|apply be_val_bound_k].
  - intros a rest Ha. revert rest a Ha.
    apply (reads_signed_cast 4 read_be_u32 be_val); [lia|apply read_be_u32_spec|apply be_val_bound_k].
Qed.

(** What the two defective signed big endian readers do instead. *)
Lemma read_be_i24_is_le : reads 3 (means_sle 24) read_be_i24.
Proof.
  intros a rest Ha. eexists. split; [apply pmap_ok, read_le_u24_spec, Ha|].
  apply sext24_twos. exact (le_val_bound_k 3 a Ha).
Qed.
Lemma read_be_i40_is_unsigned :
  reads 5 (fun a z => z = Z.of_N (be_val a)) read_be_i40.
Proof.
  intros a rest Ha. eexists. split; [apply pmap_ok, read_be_u40_spec, Ha|].
  pose proof (be_val_bound_k 5 a Ha) as H. change (256 ^ N.of_nat 5) with (2 ^ 40) in H.
  assert (2 ^ 40 <= 2 ^ (64 - 1)) by (vm_compute; discriminate).
  unfold to_signed. destruct (N.ltb_spec (be_val a) (2 ^ (64 - 1))); [reflexivity|lia].
Qed.
Lemma be_i24_refuted : ~ reads 3 (means_sbe 24) read_be_i24.
Proof.
  intros H. destruct (H [x00; x00; x01] [] eq_refl) as (v & E & T).
  vm_compute in E. injection E as <-.
  destruct T as [_ T]. vm_compute in T. discriminate.
Qed.
Lemma be_i40_refuted : ~ reads 5 (means_sbe 40) read_be_i40.
Proof.
  intros H. destruct (H [xff; xff; xff; xff; xff] [] eq_refl) as (v & E & T).
  vm_compute in E. injection E as <-.
  destruct T as [[_ T] _]. vm_compute in T. discriminate.
Qed.

(** ** Short reads *)
Lemma short_map {A B} k (f : A -> B) p : short_reads k p -> short_reads k (pmap f p).
Proof. intros H bs Hb. apply pmap_err, H; assumption. Qed.
Lemma short_take k : short_reads k (take k).
Proof. intros bs H. apply take_short; assumption. Qed.
Lemma short_u8 : short_reads 1 read_u8.
Proof. intros [|b bs] H; [reflexivity|cbn in H; lia]. Qed.
Lemma short_be_u40 : short_reads 5 read_be_u40.
Proof. intros bs H. unfold read_be_u40. destruct (Nat.ltb_spec (length bs) 5); [reflexivity|lia]. Qed.
#[export] Hint Resolve short_map short_take short_u8 short_be_u40 : short.

Lemma short_reads_all :
  short_reads 1 read_u8 /\ short_reads 1 read_i8 /\
  short_reads 2 read_le_u16 /\ short_reads 2 read_le_i16 /\
  short_reads 2 read_be_u16 /\ short_reads 2 read_be_i16 /\
  short_reads 3 read_le_u24 /\ short_reads 3 read_le_i24 /\
  short_reads 3 read_be_u24 /\ short_reads 3 read_be_i24 /\
  short_reads 4 read_le_u32 /\ short_reads 4 read_le_i32 /\
  short_reads 4 read_be_u32 /\ short_reads 4 read_be_i32 /\
  short_reads 5 read_be_u40 /\ short_reads 5 read_be_i40 /\
  short_reads 6 read_le_u48 /\ short_reads 6 read_le_i48 /\
  short_reads 8 read_le_u64 /\ short_reads 8 read_le_i64 /\
  short_reads 16 read_le_u128 /\ short_reads 16 read_le_i128 /\
  short_reads 4 read_le_f32.
Proof.
  unfold read_i8, read_le_i16, read_be_i16, read_le_i24, read_be_i24, read_le_i32, read_be_i32,
    read_be_i40, read_le_i48, read_le_i64, read_le_i128,
    read_le_u16, read_be_u16, read_le_u24, read_be_u24, read_le_u32, read_be_u32, read_le_u48,
    read_le_u64, read_le_u128, read_le_f32.
  splits; auto with short.
Qed.

Lemma short_f64 : forall bs, (length bs < 8)%nat ->
  read_le_f64 bs = if (length bs <=? 4)%nat
                   then (Err (EIncomplete (Some (N.of_nat (4 - length bs)))), bs)
                   else (Panic PArith, bs).
Proof.
  intros bs H. unfold read_le_f64. destruct (Nat.ltb_spec (length bs) 8); [|lia].
  unfold csub, blen. destruct (Nat.leb_spec (length bs) 4).
  - destruct (N.ltb_spec 4 (N.of_nat (length bs))); [lia|]. cbn [rbind]. do 4 f_equal. lia.
  - destruct (N.ltb_spec 4 (N.of_nat (length bs))); [|lia]. reflexivity.
Qed.

(** ** decoder hygiene of every reader *)
Lemma good_be_u40 : good read_be_u40.
Proof.
  assert (forall bs : bytes, (5 <= length bs)%nat -> exists a rest, bs = a ++ rest /\ length a = 5%nat) as Hs.
  { intros bs H. exists (firstn 5 bs), (skipn 5 bs). rewrite firstn_skipn, firstn_length. split; [reflexivity|lia]. }
  repeat split.
  - intros bs. destruct (Nat.ltb_spec (length bs) 5) as [H|H].
    + right. rewrite short_be_u40 by assumption. eexists; reflexivity.
    + left. destruct (Hs bs H) as (a & r & -> & Ha). rewrite read_be_u40_spec by assumption. eexists; reflexivity.
  - intros bs. destruct (Nat.ltb_spec (length bs) 5) as [H|H].
    + exists []. rewrite short_be_u40 by assumption. reflexivity.
    + destruct (Hs bs H) as (a & r & -> & Ha). rewrite read_be_u40_spec by assumption. exists a; reflexivity.
  - intros bs ext v rest E. destruct (Nat.ltb_spec (length bs) 5) as [H|H].
    + rewrite short_be_u40 in E by assumption. discriminate.
    + destruct (Hs bs H) as (a & r & -> & Ha). rewrite read_be_u40_spec in E by assumption.
      injection E as <- <-. rewrite <- app_assoc. apply read_be_u40_spec; assumption.
Qed.

#[export] Hint Resolve good_take good_read_u8 good_read_byte good_be_u40 good_read_len good_read_until : parse.

Lemma good_i8 : good read_i8. Proof. unfold read_i8; auto with parse. Qed.
Lemma good_le_u16 : good read_le_u16. Proof. unfold read_le_u16; auto with parse. Qed.
Lemma good_le_i16 : good read_le_i16. Proof. unfold read_le_i16, read_le_u16; auto with parse. Qed.
Lemma good_be_u16 : good read_be_u16. Proof. unfold read_be_u16; auto with parse. Qed.
Lemma good_be_i16 : good read_be_i16. Proof. unfold read_be_i16, read_be_u16; auto with parse. Qed.
Lemma good_le_u24 : good read_le_u24. Proof. unfold read_le_u24; auto with parse. Qed.
Lemma good_le_i24 : good read_le_i24. Proof. unfold read_le_i24, read_le_u24; auto with parse. Qed.
Lemma good_be_u24 : good read_be_u24. Proof. unfold read_be_u24; auto with parse. Qed.
Lemma good_be_i24 : good read_be_i24. Proof. unfold read_be_i24, read_le_u24; auto with parse. Qed.
Lemma good_le_u32 : good read_le_u32. Proof. unfold read_le_u32; auto with parse. Qed.
Lemma good_le_i32 : good read_le_i32. Proof. unfold read_le_i32, read_le_u32; auto with parse. Qed.
Lemma good_be_u32 : good read_be_u32. Proof. unfold read_be_u32; auto with parse. Qed.
Lemma good_be_i32 : good read_be_i32. Proof. unfold read_be_i32, read_be_u32; auto with parse. Qed.
Lemma good_be_i40 : good read_be_i40. Proof. unfold read_be_i40; auto with parse. Qed.
Lemma good_le_u48 : good read_le_u48. Proof. unfold read_le_u48; auto with parse. Qed.
Lemma good_le_i48 : good read_le_i48. Proof. unfold read_le_i48, read_le_u48; auto with parse. Qed.
Lemma good_le_u64 : good read_le_u64. Proof. unfold read_le_u64; auto with parse. Qed.
Lemma good_le_i64 : good read_le_i64. Proof. unfold read_le_i64, read_le_u64; auto with parse. Qed.
Lemma good_le_u128 : good read_le_u128. Proof. unfold read_le_u128; auto with parse. Qed.
Lemma good_le_i128 : good read_le_i128. Proof. unfold read_le_i128, read_le_u128; auto with parse. Qed.
Lemma good_le_f32 : good read_le_f32. Proof. unfold read_le_f32; auto with parse. Qed.
#[export] Hint Resolve good_i8 good_le_u16 good_le_i16 good_be_u16 good_be_i16 good_le_u24 good_le_i24
  good_be_u24 good_be_i24 good_le_u32 good_le_i32 good_be_u32 good_be_i32 good_be_i40 good_le_u48
  good_le_i48 good_le_u64 good_le_i64 good_le_u128 good_le_i128 good_le_f32 : parse.

Lemma suffix_le_f64 : suffix_p read_le_f64.
Proof.
  intros bs. unfold read_le_f64. destruct (length bs <? 8)%nat; [exists []; reflexivity|].
  apply (good_suffix (pmap get_le (take 8))). auto with parse.
Qed.
Lemma local_le_f64 : local_p read_le_f64.
Proof.
  intros bs ext v rest E. unfold read_le_f64 in *. rewrite app_length.
  destruct (Nat.ltb_spec (length bs) 8).
  - unfold csub in E. destruct (4 <? blen bs); discriminate.
  - destruct (Nat.ltb_spec (length bs + length ext) 8); [lia|].
    apply (good_local (pmap get_le (take 8))); auto with parse.
Qed.
#[export] Hint Resolve suffix_le_f64 local_le_f64 : parse.
