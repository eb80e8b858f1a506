(** Proofs about MySQL's stored and textual TIME / DATETIME *)
From Verif Require Import Model.Base Model.BytesParser Model.Utf8 Model.Fmt Model.Time
  Spec.Nums Spec.Codec Spec.Wire Spec.Temporal
  Proofs.BaseLemmas Proofs.BytesParserProofs Proofs.CodecProofs Proofs.WireLemmas.
Open Scope N_scope.

Ltac consts := change (2 ^ 5) with 32 in *; change (2 ^ 6) with 64 in *; change (2 ^ 8) with 256 in *;
  change (2 ^ 10) with 1024 in *; change (2 ^ 12) with 4096 in *; change (2 ^ 16) with 65536 in *;
  change (2 ^ 17) with 131072 in *; change (2 ^ 24) with 16777216 in *; change (2 ^ 32) with 4294967296 in *;
  change (2 ^ 40) with 1099511627776 in *; change (2 ^ 48) with 281474976710656 in *;
  change (2 ^ 63) with 9223372036854775808 in *; change (2 ^ 64) with 18446744073709551616 in *;
  change (2 ^ 24)%Z with 16777216%Z in *.

Lemma land_ones' n k m : m = N.ones k -> N.land n m = n mod 2 ^ k.
Proof. intros ->. apply N.land_ones. Qed.
Lemma land_bit n k : N.land n (2 ^ k) = if N.testbit n k then 2 ^ k else 0.
Proof.
  apply N.bits_inj. intros i. rewrite N.land_spec, N.pow2_bits_eqb.
  destruct (N.eqb_spec k i) as [->|Hn].
  - destruct (N.testbit n i) eqn:E; rewrite ?N.pow2_bits_true, ?N.bits_0; reflexivity.
  - rewrite andb_false_r. destruct (N.testbit n k); rewrite ?N.bits_0; [|reflexivity].
    symmetry. apply N.pow2_bits_false. exact Hn.
Qed.
Lemma top_bit n k : n < 2 ^ (k + 1) -> (N.land n (2 ^ k) =? 2 ^ k) = (2 ^ k <=? n).
Proof.
  intros H. rewrite land_bit, N.testbit_eqb. rewrite N.add_1_r, N.pow_succ_r' in H.
  assert (2 ^ k <> 0) by (apply N.pow_nonzero; discriminate).
  set (p := 2 ^ k) in *. destruct (N.leb_spec p n).
  - assert (n / p = 1) as -> by (symmetry; apply (N.div_unique n p 1 (n - p)); lia).
    change (1 mod 2 =? 1) with true. cbv iota. apply N.eqb_refl.
  - rewrite (N.div_small n p) by lia. change (0 mod 2 =? 1) with false. cbv iota. apply N.eqb_neq. lia.
Qed.

Lemma wle_app j : forall k n, wle (j + k) n = wle j n ++ wle k (n / 2 ^ (8 * N.of_nat j)).
Proof.
  induction j as [|j IH]; intros k n.
  - change (2 ^ (8 * N.of_nat 0)) with 1. rewrite N.div_1_r. reflexivity.
  - cbn [Nat.add wle app]. rewrite IH. do 2 f_equal.
    replace (8 * N.of_nat (S j)) with (8 + 8 * N.of_nat j) by lia.
    rewrite N.pow_add_r. change (2 ^ 8) with 256. rewrite N.div_div; [reflexivity|discriminate|].
    apply N.pow_nonzero. discriminate.
Qed.
Lemma wle_mod j : forall n, wle j (n mod 2 ^ (8 * N.of_nat j)) = wle j n.
Proof.
  induction j as [|j IH]; intros n; [reflexivity|]. cbn [wle].
  replace (8 * N.of_nat (S j)) with (8 + 8 * N.of_nat j) by lia.
  rewrite N.pow_add_r. change (2 ^ 8) with 256.
  assert (P : 2 ^ (8 * N.of_nat j) <> 0) by (apply N.pow_nonzero; discriminate).
  rewrite N.mod_mul_r by (assumption || discriminate). f_equal.
  - f_equal. rewrite N.mul_comm, N.mod_add by discriminate. apply N.mod_mod. discriminate.
  - rewrite N.mul_comm, N.div_add by discriminate. rewrite N.div_small by (apply N.mod_lt; discriminate).
    rewrite N.add_0_l. apply IH.
Qed.
Lemma wbe_6 n : wbe 6 n = wbe 3 (n / 2 ^ 24) ++ wbe 3 (n mod 2 ^ 24).
Proof.
  unfold wbe. change 6%nat with (3 + 3)%nat. rewrite (wle_app 3 3 n), rev_app_distr.
  change (2 ^ 24) with (2 ^ (8 * N.of_nat 3)). rewrite (wle_mod 3). reflexivity.
Qed.
Lemma wsbe_small k z : (0 <= z < 256 ^ Z.of_nat k)%Z -> wsbe k z = wbe k (Z.to_N z).
Proof. intros H. unfold wsbe. rewrite Z.mod_small by exact H. reflexivity. Qed.

(** ** TIME *)
Definition unpack_time (packed : N) (negative : bool) : my_time :=
  let hms := N.land (N.shiftr packed 24) 0xffffff in
  let hours := N.shiftr hms 12 mod N.shiftl 1 10 in
  let days := hours / 24 in
  mk_time negative days (trunc 8 (hours - days * 24)) (trunc 8 (N.shiftr hms 6 mod N.shiftl 1 6))
    (trunc 8 (hms mod N.shiftl 1 6)) (N.land packed 0xffffff).
Lemma unpack_time_spec packed neg hours m s us :
  hours < 1024 -> m < 64 -> s < 64 -> us < 2 ^ 24 ->
  packed mod 2 ^ 48 = (hours * 4096 + m * 64 + s) * 2 ^ 24 + us ->
  unpack_time packed neg = mk_time neg (hours / 24) (hours mod 24) m s us.
Proof.
  intros Hh Hm Hs Hu H. unfold unpack_time, trunc.
  rewrite !(land_ones' _ 24) by reflexivity. rewrite !N.shiftr_div_pow2.
  change (N.shiftl 1 10) with 1024. change (N.shiftl 1 6) with 64. consts.
  assert (E : (packed / 16777216) mod 16777216 = hours * 4096 + m * 64 + s).
  { clear - Hh Hm Hs Hu H. lia. }
  rewrite E. f_equal; clear - Hh Hm Hs Hu H; lia.
Qed.

Lemma time_from_packed frac bs packed neg rest :
  packed_from_time_binary frac bs = (Ok (packed, neg), rest) ->
  time_from_binlog frac bs = (Ok (unpack_time packed neg), rest).
Proof. intros H. unfold time_from_binlog. eapply eq_trans; [eapply pbind_ok; exact H|]. reflexivity. Qed.

Lemma neg64_ok p : p <> 2 ^ 63 -> neg64 p = Ok ((2 ^ 64 - p) mod 2 ^ 64).
Proof. intros H. unfold neg64. destruct (N.eqb_spec p (2 ^ 63)); [contradiction|reflexivity]. Qed.

(** what the decoder computes from the raw integer [hms] and the fraction *)
Lemma packed_time_read frac fw fv bs rest hms packed :
  hms < 2 ^ 24 ->
  (frac = 0 /\ bs = [] /\ fv = 0 /\ packed = wsub 32 hms 0x800000 * 2 ^ 24 \/
   (frac = 1 \/ frac = 2) /\ bs = wbe 1 fw /\ fw < 2 ^ 8 /\ fv = fw * 10000 /\ packed = wsub 32 hms 0x800000 * 2 ^ 24 + fv \/
   (frac = 3 \/ frac = 4) /\ bs = wbe 2 fw /\ fw < 2 ^ 16 /\ fv = fw * 100 /\ packed = wsub 32 hms 0x800000 * 2 ^ 24 + fv \/
   (frac = 5 \/ frac = 6) /\ bs = wbe 3 fw /\ fw < 2 ^ 24 /\ fv = fw /\ packed = wsub 64 (hms * 2 ^ 24 + fv) 0x800000000000) ->
  (0x800000 <= hms -> packed_from_time_binary frac (wbe 3 hms ++ bs ++ rest) = (Ok (packed, false), rest)) /\
  (hms < 0x800000 -> packed <> 2 ^ 63 ->
   packed_from_time_binary frac (wbe 3 hms ++ bs ++ rest) = (Ok ((2 ^ 64 - packed) mod 2 ^ 64, true), rest)).
Proof.
  intros Hh Hc.
  assert (T : (N.land hms 0x800000 =? 0x800000) = (0x800000 <=? hms)) by (apply (top_bit hms 23); exact Hh).
  assert (R : forall p, (if negb (N.land hms 0x800000 =? 0x800000) then plift (neg64 p) else pret p) rest
     = if 0x800000 <=? hms then (Ok p, rest) else (neg64 p, rest)).
  { intros p. rewrite T. destruct (0x800000 <=? hms); reflexivity. }
  assert (G : packed_from_time_binary frac (wbe 3 hms ++ bs ++ rest)
     = (packed <- (if negb (N.land hms 0x800000 =? 0x800000) then plift (neg64 packed) else pret packed) ;;
        pret (packed, negb (N.land hms 0x800000 =? 0x800000))) rest).
  { unfold packed_from_time_binary. rstep.
    destruct Hc as [(-> & -> & -> & ->)|[([-> | ->] & -> & Hf & -> & ->)|[([-> | ->] & -> & Hf & -> & ->)|([-> | ->] & -> & Hf & -> & ->)]]].
    all: rewrite <- ?N.shiftl_mul_pow2; cbv beta iota zeta.
    - reflexivity.
    - eapply eq_trans; [eapply pbind_ok; eapply eq_trans; [eapply pbind_ok; apply (rd_u8 rest fw Hf)|reflexivity]|]. reflexivity.
    - eapply eq_trans; [eapply pbind_ok; eapply eq_trans; [eapply pbind_ok; apply (rd_u8 rest fw Hf)|reflexivity]|]. reflexivity.
    - eapply eq_trans; [eapply pbind_ok; eapply eq_trans; [eapply pbind_ok; apply (rd_be16 rest fw Hf)|reflexivity]|]. reflexivity.
    - eapply eq_trans; [eapply pbind_ok; eapply eq_trans; [eapply pbind_ok; apply (rd_be16 rest fw Hf)|reflexivity]|]. reflexivity.
    - eapply eq_trans; [eapply pbind_ok; eapply eq_trans; [eapply pbind_ok; apply (rd_be24 rest fw Hf)|reflexivity]|]. reflexivity.
    - eapply eq_trans; [eapply pbind_ok; eapply eq_trans; [eapply pbind_ok; apply (rd_be24 rest fw Hf)|reflexivity]|]. reflexivity. }
  rewrite G. unfold pbind. rewrite R, T. clear. split; intros H.
  - destruct (N.leb_spec 0x800000 hms); [reflexivity|lia].
  - intros Hp. destruct (N.leb_spec 0x800000 hms); [lia|]. rewrite neg64_ok by exact Hp. reflexivity.
Qed.

Definition hms_of (t : my_time) : N := hours_of t * 4096 + t_minute t * 64 + t_second t.
Lemma time_eta dec t us : stored_time dec t -> us < 2 ^ 24 ->
  forall packed neg, packed mod 2 ^ 48 = hms_of t * 2 ^ 24 + us ->
  unpack_time packed neg = mk_time neg (t_days t) (t_hour t) (t_minute t) (t_second t) us.
Proof.
  intros (Hd & Hh & Hhr & Hm & Hs & Hu & Hr & Hn) Hus packed neg H.
  rewrite (unpack_time_spec packed neg (hours_of t) (t_minute t) (t_second t) us).
  - unfold hours_of in *. f_equal; clear - Hh; lia.
  - lia.
  - lia.
  - lia.
  - exact Hus.
  - exact H.
Qed.

(** positive or zero *)
Lemma time_nonneg dec t rest : stored_time dec t -> t_neg t = false ->
  time_from_binlog dec (time_bytes dec t ++ rest) = (Ok t, rest).
Proof.
  intros Hst Hneg. pose proof Hst as (Hd & Hh & Hhr & Hm & Hs & Hu & Hr & Hn).
  assert (Hb : hms_of t < 4194304) by (unfold hms_of; lia).
  assert (Hp : packed_time t = Z.of_N (hms_of t * 16777216 + t_micro t)).
  { unfold packed_time. rewrite Hneg. reflexivity. }
  assert (Hi : (packed_time t / 2 ^ 24)%Z = Z.of_N (hms_of t)).
  { rewrite Hp. consts. clear - Hu. lia. }
  assert (Hf : Z.rem (packed_time t) (2 ^ 24) = Z.of_N (t_micro t)).
  { rewrite Hp. rewrite Z.rem_mod_nonneg by (consts; clear; lia). consts. clear - Hu. lia. }
  assert (Fin : forall packed, packed mod 2 ^ 48 = hms_of t * 2 ^ 24 + t_micro t -> unpack_time packed false = t).
  { intros packed H. rewrite (time_eta dec t (t_micro t) Hst ltac:(consts; lia) packed false H).
    destruct t; cbn in *; subst; reflexivity. }
  assert (B3 : wsbe 3 (packed_time t / 2 ^ 24 + 0x800000) = wbe 3 (hms_of t + 0x800000)).
  { rewrite Hi, wsbe_small by (change (256 ^ Z.of_nat 3)%Z with 16777216%Z; clear - Hb; lia). f_equal. clear; lia. }
  assert (W : wsub 32 (hms_of t + 0x800000) 0x800000 = hms_of t).
  { unfold wsub. consts. clear - Hb. lia. }
  assert (D : dec = 0 \/ dec = 1 \/ dec = 2 \/ dec = 3 \/ dec = 4 \/ dec = 5 \/ dec = 6) by lia.
  assert (Hh24 : hms_of t + 0x800000 < 2 ^ 24) by (consts; clear - Hb; lia).
  destruct D as [->|[->|[->|[->|[->|[->| ->]]]]]]; unfold time_bytes; rewrite ?B3, ?Hf, <- ?app_assoc.
  - change (wbe 3 (hms_of t + 0x800000) ++ rest) with (wbe 3 (hms_of t + 0x800000) ++ [] ++ rest).
    rewrite (time_from_packed _ _ _ _ _ (proj1 (packed_time_read 0 0 0 [] rest _ _ Hh24 (or_introl (conj eq_refl (conj eq_refl (conj eq_refl eq_refl))))) ltac:(clear; lia))).
    rewrite Fin; [reflexivity|]. change (10 ^ (6 - 0)) with 1000000 in Hr. rewrite W. consts. clear - Hr Hu Hb. lia.
  - assert (Q : Z.quot (Z.of_N (t_micro t)) 10000 = Z.of_N (t_micro t / 10000)) by (rewrite Z.quot_div_nonneg by lia; symmetry; apply N2Z.inj_div).
    rewrite Q, wsbe_small by (change (256 ^ Z.of_nat 1)%Z with 256%Z; clear - Hu; lia). rewrite N2Z.id.
    assert (Hx : t_micro t / 10000 < 2 ^ 8) by (consts; clear - Hu; lia).
    rewrite (time_from_packed _ _ _ _ _ (proj1 (packed_time_read 1 (t_micro t / 10000) _ _ rest _ _ Hh24 (or_intror (or_introl (conj (or_introl eq_refl) (conj eq_refl (conj Hx (conj eq_refl eq_refl))))))) ltac:(clear; lia))).
    rewrite Fin; [reflexivity|]. change (10 ^ (6 - 1)) with 100000 in Hr. rewrite W. consts. clear - Hr Hu Hb. lia.
  - assert (Q : Z.quot (Z.of_N (t_micro t)) 10000 = Z.of_N (t_micro t / 10000)) by (rewrite Z.quot_div_nonneg by lia; symmetry; apply N2Z.inj_div).
    rewrite Q, wsbe_small by (change (256 ^ Z.of_nat 1)%Z with 256%Z; clear - Hu; lia). rewrite N2Z.id.
    assert (Hx : t_micro t / 10000 < 2 ^ 8) by (consts; clear - Hu; lia).
    rewrite (time_from_packed _ _ _ _ _ (proj1 (packed_time_read 2 (t_micro t / 10000) _ _ rest _ _ Hh24 (or_intror (or_introl (conj (or_intror eq_refl) (conj eq_refl (conj Hx (conj eq_refl eq_refl))))))) ltac:(clear; lia))).
    rewrite Fin; [reflexivity|]. change (10 ^ (6 - 2)) with 10000 in Hr. rewrite W. consts. clear - Hr Hu Hb. lia.
  - assert (Q : Z.quot (Z.of_N (t_micro t)) 100 = Z.of_N (t_micro t / 100)) by (rewrite Z.quot_div_nonneg by lia; symmetry; apply N2Z.inj_div).
    rewrite Q, wsbe_small by (change (256 ^ Z.of_nat 2)%Z with 65536%Z; clear - Hu; lia). rewrite N2Z.id.
    assert (Hx : t_micro t / 100 < 2 ^ 16) by (consts; clear - Hu; lia).
    rewrite (time_from_packed _ _ _ _ _ (proj1 (packed_time_read 3 (t_micro t / 100) _ _ rest _ _ Hh24 (or_intror (or_intror (or_introl (conj (or_introl eq_refl) (conj eq_refl (conj Hx (conj eq_refl eq_refl)))))))) ltac:(clear; lia))).
    rewrite Fin; [reflexivity|]. change (10 ^ (6 - 3)) with 1000 in Hr. rewrite W. consts. clear - Hr Hu Hb. lia.
  - assert (Q : Z.quot (Z.of_N (t_micro t)) 100 = Z.of_N (t_micro t / 100)) by (rewrite Z.quot_div_nonneg by lia; symmetry; apply N2Z.inj_div).
    rewrite Q, wsbe_small by (change (256 ^ Z.of_nat 2)%Z with 65536%Z; clear - Hu; lia). rewrite N2Z.id.
    assert (Hx : t_micro t / 100 < 2 ^ 16) by (consts; clear - Hu; lia).
    rewrite (time_from_packed _ _ _ _ _ (proj1 (packed_time_read 4 (t_micro t / 100) _ _ rest _ _ Hh24 (or_intror (or_intror (or_introl (conj (or_intror eq_refl) (conj eq_refl (conj Hx (conj eq_refl eq_refl)))))))) ltac:(clear; lia))).
    rewrite Fin; [reflexivity|]. change (10 ^ (6 - 4)) with 100 in Hr. rewrite W. consts. clear - Hr Hu Hb. lia.
  - rewrite Hp, wsbe_small by (change (256 ^ Z.of_nat 6)%Z with 281474976710656%Z; clear - Hb Hu; lia).
    replace (Z.to_N (Z.of_N (hms_of t * 16777216 + t_micro t) + 0x800000000000)) with ((hms_of t + 0x800000) * 16777216 + t_micro t) by (clear; lia).
    rewrite wbe_6, <- app_assoc. consts.
    replace (((hms_of t + 8388608) * 16777216 + t_micro t) / 16777216) with (hms_of t + 8388608) by (clear - Hu; lia).
    replace (((hms_of t + 8388608) * 16777216 + t_micro t) mod 16777216) with (t_micro t) by (clear - Hu; lia).
    assert (Hx : t_micro t < 16777216) by (clear - Hu; lia).
    rewrite (time_from_packed _ _ _ _ _ (proj1 (packed_time_read 5 (t_micro t) _ _ rest _ _ Hh24 (or_intror (or_intror (or_intror (conj (or_introl eq_refl) (conj eq_refl (conj Hx (conj eq_refl eq_refl)))))))) ltac:(clear; lia))).
    rewrite Fin; [reflexivity|]. unfold wsub. consts. clear - Hu Hb. lia.
  - rewrite Hp, wsbe_small by (change (256 ^ Z.of_nat 6)%Z with 281474976710656%Z; clear - Hb Hu; lia).
    replace (Z.to_N (Z.of_N (hms_of t * 16777216 + t_micro t) + 0x800000000000)) with ((hms_of t + 0x800000) * 16777216 + t_micro t) by (clear; lia).
    rewrite wbe_6, <- app_assoc. consts.
    replace (((hms_of t + 8388608) * 16777216 + t_micro t) / 16777216) with (hms_of t + 8388608) by (clear - Hu; lia).
    replace (((hms_of t + 8388608) * 16777216 + t_micro t) mod 16777216) with (t_micro t) by (clear - Hu; lia).
    assert (Hx : t_micro t < 16777216) by (clear - Hu; lia).
    rewrite (time_from_packed _ _ _ _ _ (proj1 (packed_time_read 6 (t_micro t) _ _ rest _ _ Hh24 (or_intror (or_intror (or_intror (conj (or_intror eq_refl) (conj eq_refl (conj Hx (conj eq_refl eq_refl)))))))) ltac:(clear; lia))).
    rewrite Fin; [reflexivity|]. unfold wsub. consts. clear - Hu Hb. lia.
Qed.

(** negative, whole seconds or five and more fractional digits *)
Lemma packed_neg t : t_neg t = true -> packed_time t = (- Z.of_N (hms_of t * 16777216 + t_micro t))%Z.
Proof. intros H. unfold packed_time. rewrite H. reflexivity. Qed.
Lemma hms_bound dec t : stored_time dec t -> hms_of t < 4194304 /\ t_micro t < 1000000.
Proof. intros (Hd & Hh & Hhr & Hm & Hs & Hu & Hr & Hn). unfold hms_of. split; lia. Qed.
Lemma neg_nonzero dec t : stored_time dec t -> t_neg t = true -> 0 < hms_of t * 16777216 + t_micro t.
Proof. intros (Hd & Hh & Hhr & Hm & Hs & Hu & Hr & Hn) H. specialize (Hn H). unfold hms_of. lia. Qed.

Lemma time_neg_whole dec t rest : stored_time dec t -> t_neg t = true -> t_micro t = 0 -> dec <= 4 ->
  time_from_binlog dec (time_bytes dec t ++ rest) = (Ok t, rest).
Proof.
  intros Hst Hneg Hz Hd4. destruct (hms_bound _ _ Hst) as (Hb & Hu). pose proof (neg_nonzero _ _ Hst Hneg) as Hnz.
  pose proof (packed_neg t Hneg) as Hp. rewrite Hz in *.
  assert (Hi : (packed_time t / 2 ^ 24)%Z = (- Z.of_N (hms_of t))%Z) by (rewrite Hp; consts; clear; lia).
  assert (Hf : Z.rem (packed_time t) (2 ^ 24) = 0%Z).
  { rewrite Hp. consts. replace (- Z.of_N (hms_of t * 16777216 + 0))%Z with (- Z.of_N (hms_of t) * 16777216)%Z by (clear; lia).
    apply Z.rem_mul. discriminate. }
  assert (B3 : wsbe 3 (packed_time t / 2 ^ 24 + 0x800000) = wbe 3 (0x800000 - hms_of t)).
  { rewrite Hi, wsbe_small by (change (256 ^ Z.of_nat 3)%Z with 16777216%Z; clear - Hb; lia). f_equal. clear - Hb; lia. }
  assert (Fin : forall packed, packed mod 2 ^ 48 = hms_of t * 2 ^ 24 -> unpack_time packed true = t).
  { intros packed H. rewrite (time_eta dec t 0 Hst ltac:(consts; lia) packed true); [|rewrite H; lia].
    destruct t; cbn in *; subst; reflexivity. }
  assert (W : wsub 32 (0x800000 - hms_of t) 0x800000 = 4294967296 - hms_of t).
  { unfold wsub. consts. clear - Hb Hnz. lia. }
  assert (Hh24 : 0x800000 - hms_of t < 2 ^ 24) by (consts; clear - Hb; lia).
  assert (Hlt : 0x800000 - hms_of t < 0x800000) by (clear - Hnz; lia).
  assert (Z1 : Z.quot 0 10000 = 0%Z) by reflexivity. assert (Z2 : Z.quot 0 100 = 0%Z) by reflexivity.
  assert (D : dec = 0 \/ dec = 1 \/ dec = 2 \/ dec = 3 \/ dec = 4) by lia.
  destruct D as [->|[->|[->|[->| ->]]]]; unfold time_bytes; rewrite ?B3, ?Hf, <- ?app_assoc.
  1: change (wbe 3 (0x800000 - hms_of t) ++ rest) with (wbe 3 (0x800000 - hms_of t) ++ [] ++ rest).
  2,3: change (wsbe 1 (Z.quot 0 10000)) with (wbe 1 0).
  4,5: change (wsbe 2 (Z.quot 0 100)) with (wbe 2 0).
  - rewrite (time_from_packed _ _ _ _ _ (proj2 (packed_time_read 0 0 0 [] rest _ _ Hh24 (or_introl (conj eq_refl (conj eq_refl (conj eq_refl eq_refl))))) Hlt ltac:(rewrite W; consts; clear - Hb; lia))).
    rewrite Fin; [reflexivity|]. rewrite W. consts. clear - Hb. lia.
  - rewrite (time_from_packed _ _ _ _ _ (proj2 (packed_time_read 1 0 _ _ rest _ _ Hh24 (or_intror (or_introl (conj (or_introl eq_refl) (conj eq_refl (conj eq_refl (conj eq_refl eq_refl))))))) Hlt ltac:(rewrite W; consts; clear - Hb; lia))).
    rewrite Fin; [reflexivity|]. rewrite W. consts. clear - Hb. lia.
  - rewrite (time_from_packed _ _ _ _ _ (proj2 (packed_time_read 2 0 _ _ rest _ _ Hh24 (or_intror (or_introl (conj (or_intror eq_refl) (conj eq_refl (conj eq_refl (conj eq_refl eq_refl))))))) Hlt ltac:(rewrite W; consts; clear - Hb; lia))).
    rewrite Fin; [reflexivity|]. rewrite W. consts. clear - Hb. lia.
  - rewrite (time_from_packed _ _ _ _ _ (proj2 (packed_time_read 3 0 _ _ rest _ _ Hh24 (or_intror (or_intror (or_introl (conj (or_introl eq_refl) (conj eq_refl (conj eq_refl (conj eq_refl eq_refl)))))))) Hlt ltac:(rewrite W; consts; clear - Hb; lia))).
    rewrite Fin; [reflexivity|]. rewrite W. consts. clear - Hb. lia.
  - rewrite (time_from_packed _ _ _ _ _ (proj2 (packed_time_read 4 0 _ _ rest _ _ Hh24 (or_intror (or_intror (or_introl (conj (or_intror eq_refl) (conj eq_refl (conj eq_refl (conj eq_refl eq_refl)))))))) Hlt ltac:(rewrite W; consts; clear - Hb; lia))).
    rewrite Fin; [reflexivity|]. rewrite W. consts. clear - Hb. lia.
Qed.

Lemma time_neg_fine dec t rest : stored_time dec t -> t_neg t = true -> 5 <= dec ->
  time_from_binlog dec (time_bytes dec t ++ rest) = (Ok t, rest).
Proof.
  intros Hst Hneg Hd5. destruct (hms_bound _ _ Hst) as (Hb & Hu). pose proof (neg_nonzero _ _ Hst Hneg) as Hnz.
  pose proof (packed_neg t Hneg) as Hp.
  set (V := hms_of t * 16777216 + t_micro t) in *.
  assert (HV : V < 70368744177664) by (unfold V; clear - Hb Hu; lia).
  assert (B6 : wsbe 6 (packed_time t + 0x800000000000) = wbe 6 (0x800000000000 - V)).
  { rewrite Hp, wsbe_small by (change (256 ^ Z.of_nat 6)%Z with 281474976710656%Z; clear - HV; lia). f_equal. clear - HV; lia. }
  assert (Fin : forall packed, packed mod 2 ^ 48 = V -> unpack_time packed true = t).
  { intros packed H. rewrite (time_eta dec t (t_micro t) Hst ltac:(consts; lia) packed true); [|rewrite H; reflexivity].
    destruct t; cbn in *; subst; reflexivity. }
  assert (Hh24 : (0x800000000000 - V) / 2 ^ 24 < 2 ^ 24) by (consts; clear - HV; lia).
  assert (Hlt : (0x800000000000 - V) / 2 ^ 24 < 0x800000) by (consts; clear - Hnz; lia).
  assert (Hx : (0x800000000000 - V) mod 2 ^ 24 < 2 ^ 24) by (consts; clear; lia).
  assert (W : wsub 64 ((0x800000000000 - V) / 2 ^ 24 * 2 ^ 24 + (0x800000000000 - V) mod 2 ^ 24) 0x800000000000 = 18446744073709551616 - V).
  { unfold wsub. replace ((0x800000000000 - V) / 2 ^ 24 * 2 ^ 24 + (0x800000000000 - V) mod 2 ^ 24) with (0x800000000000 - V).
    - consts. clear - HV Hnz. lia.
    - rewrite N.mul_comm. apply N.div_mod. discriminate. }
  assert (N1 : 18446744073709551616 - V <> 2 ^ 63) by (consts; clear - HV; lia).
  assert (D : dec = 5 \/ dec = 6) by (destruct Hst; lia).
  destruct D as [-> | ->]; unfold time_bytes; rewrite B6, wbe_6, <- app_assoc.
  - pose proof (proj2 (packed_time_read 5 _ _ _ rest _ _ Hh24 (or_intror (or_intror (or_intror (conj (or_introl eq_refl) (conj eq_refl (conj Hx (conj eq_refl eq_refl)))))))) Hlt) as P.
    rewrite W in P. rewrite (time_from_packed _ _ _ _ _ (P N1)).
    rewrite Fin; [reflexivity|]. consts. clear - HV Hnz. lia.
  - pose proof (proj2 (packed_time_read 6 _ _ _ rest _ _ Hh24 (or_intror (or_intror (or_intror (conj (or_intror eq_refl) (conj eq_refl (conj Hx (conj eq_refl eq_refl)))))))) Hlt) as P.
    rewrite W in P. rewrite (time_from_packed _ _ _ _ _ (P N1)).
    rewrite Fin; [reflexivity|]. consts. clear - HV Hnz. lia.
Qed.

Lemma time_decodes dec t rest : stored_time dec t ->
  t_neg t = false \/ t_micro t = 0 \/ 5 <= dec ->
  time_from_binlog dec (time_bytes dec t ++ rest) = (Ok t, rest).
Proof.
  intros Hst H. destruct (t_neg t) eqn:E; [|apply time_nonneg; assumption].
  destruct (N.le_gt_cases 5 dec) as [Hd|Hd]; [apply time_neg_fine; assumption|].
  destruct H as [H|[H|H]]; [discriminate| |lia]. apply time_neg_whole; try assumption. lia.
Qed.

(** the remaining case: the borrow of the fraction is not undone *)
Lemma time_neg_fraction dec t rest : stored_time dec t -> t_neg t = true -> t_micro t <> 0 -> dec <= 4 ->
  time_from_binlog dec (time_bytes dec t ++ rest)
  = (Ok (mk_time true (t_days t) (t_hour t) (t_minute t) (t_second t) (t_micro t + borrow_error dec)), rest).
Proof.
  intros Hst Hneg Hz Hd4. destruct (hms_bound _ _ Hst) as (Hb & Hu).
  pose proof (packed_neg t Hneg) as Hp. pose proof Hst as (_ & _ & _ & _ & _ & _ & Hr & _).
  assert (Hi : (packed_time t / 2 ^ 24)%Z = (- Z.of_N (hms_of t) - 1)%Z) by (rewrite Hp; consts; clear - Hz Hu; lia).
  assert (Hf : Z.rem (packed_time t) (2 ^ 24) = (- Z.of_N (t_micro t))%Z).
  { rewrite Hp. consts. rewrite Z.rem_opp_l by discriminate. f_equal.
    rewrite Z.rem_mod_nonneg by (clear; lia). clear - Hu. lia. }
  assert (B3 : wsbe 3 (packed_time t / 2 ^ 24 + 0x800000) = wbe 3 (0x7fffff - hms_of t)).
  { rewrite Hi, wsbe_small by (change (256 ^ Z.of_nat 3)%Z with 16777216%Z; clear - Hb; lia). f_equal. clear - Hb; lia. }
  assert (Fin : forall packed us, us < 2 ^ 24 -> packed mod 2 ^ 48 = hms_of t * 2 ^ 24 + us -> 
     unpack_time packed true = mk_time true (t_days t) (t_hour t) (t_minute t) (t_second t) us).
  { intros packed us Hus H. apply (time_eta dec t us Hst Hus packed true H). }
  assert (W : wsub 32 (0x7fffff - hms_of t) 0x800000 = 4294967295 - hms_of t).
  { unfold wsub. consts. clear - Hb. lia. }
  assert (Hh24 : 0x7fffff - hms_of t < 2 ^ 24) by (consts; clear - Hb; lia).
  assert (Hlt : 0x7fffff - hms_of t < 0x800000) by (clear; lia).
  assert (Fq : forall k p, (0 < p)%Z -> (Z.of_N (t_micro t) / p < 256 ^ Z.of_nat k)%Z -> (0 < Z.of_N (t_micro t) / p)%Z ->
     wsbe k (Z.quot (- Z.of_N (t_micro t)) p) = wbe k (Z.to_N (256 ^ Z.of_nat k - Z.of_N (t_micro t) / p))).
  { intros k p Hp0 Hk H0. unfold wsbe. f_equal. f_equal. rewrite Z.quot_opp_l by lia. rewrite Z.quot_div_nonneg by lia.
    symmetry. apply (Z.mod_unique_pos _ _ (-1)); lia. }
  assert (D : dec = 0 \/ dec = 1 \/ dec = 2 \/ dec = 3 \/ dec = 4) by lia.
  destruct D as [->|[->|[->|[->| ->]]]].
  { change (10 ^ (6 - 0)) with 1000000 in Hr. exfalso. clear - Hr Hu Hz. lia. }
  all: unfold time_bytes; rewrite ?B3, ?Hf, <- ?app_assoc.
  - change (10 ^ (6 - 1)) with 100000 in Hr.
    rewrite (Fq 1%nat 10000%Z) by (change (256 ^ Z.of_nat 1)%Z with 256%Z; clear - Hr Hu Hz; lia).
    change (256 ^ Z.of_nat 1)%Z with 256%Z.
    set (f := Z.to_N (256 - Z.of_N (t_micro t) / 10000)). assert (Hx : f < 2 ^ 8) by (unfold f; consts; clear - Hr Hu Hz; lia).
    rewrite (time_from_packed _ _ _ _ _ (proj2 (packed_time_read 1 f _ _ rest _ _ Hh24 (or_intror (or_introl (conj (or_introl eq_refl) (conj eq_refl (conj Hx (conj eq_refl eq_refl))))))) Hlt ltac:(rewrite W; consts; clear - Hb Hx; lia))).
    rewrite (Fin _ (t_micro t + borrow_error 1)); [reflexivity| |]; change (borrow_error 1) with 14217216; rewrite ?W; consts.
    + clear - Hu. lia.
    + unfold f. clear - Hr Hu Hz Hb. lia.
  - change (10 ^ (6 - 2)) with 10000 in Hr.
    rewrite (Fq 1%nat 10000%Z) by (change (256 ^ Z.of_nat 1)%Z with 256%Z; clear - Hr Hu Hz; lia).
    change (256 ^ Z.of_nat 1)%Z with 256%Z.
    set (f := Z.to_N (256 - Z.of_N (t_micro t) / 10000)). assert (Hx : f < 2 ^ 8) by (unfold f; consts; clear - Hr Hu Hz; lia).
    rewrite (time_from_packed _ _ _ _ _ (proj2 (packed_time_read 2 f _ _ rest _ _ Hh24 (or_intror (or_introl (conj (or_intror eq_refl) (conj eq_refl (conj Hx (conj eq_refl eq_refl))))))) Hlt ltac:(rewrite W; consts; clear - Hb Hx; lia))).
    rewrite (Fin _ (t_micro t + borrow_error 2)); [reflexivity| |]; change (borrow_error 2) with 14217216; rewrite ?W; consts.
    + clear - Hu. lia.
    + unfold f. clear - Hr Hu Hz Hb. lia.
  - change (10 ^ (6 - 3)) with 1000 in Hr.
    rewrite (Fq 2%nat 100%Z) by (change (256 ^ Z.of_nat 2)%Z with 65536%Z; clear - Hr Hu Hz; lia).
    change (256 ^ Z.of_nat 2)%Z with 65536%Z.
    set (f := Z.to_N (65536 - Z.of_N (t_micro t) / 100)). assert (Hx : f < 2 ^ 16) by (unfold f; consts; clear - Hr Hu Hz; lia).
    rewrite (time_from_packed _ _ _ _ _ (proj2 (packed_time_read 3 f _ _ rest _ _ Hh24 (or_intror (or_intror (or_introl (conj (or_introl eq_refl) (conj eq_refl (conj Hx (conj eq_refl eq_refl)))))))) Hlt ltac:(rewrite W; consts; clear - Hb Hx; lia))).
    rewrite (Fin _ (t_micro t + borrow_error 3)); [reflexivity| |]; change (borrow_error 3) with 10223616; rewrite ?W; consts.
    + clear - Hu. lia.
    + unfold f. clear - Hr Hu Hz Hb. lia.
  - change (10 ^ (6 - 4)) with 100 in Hr.
    rewrite (Fq 2%nat 100%Z) by (change (256 ^ Z.of_nat 2)%Z with 65536%Z; clear - Hr Hu Hz; lia).
    change (256 ^ Z.of_nat 2)%Z with 65536%Z.
    set (f := Z.to_N (65536 - Z.of_N (t_micro t) / 100)). assert (Hx : f < 2 ^ 16) by (unfold f; consts; clear - Hr Hu Hz; lia).
    rewrite (time_from_packed _ _ _ _ _ (proj2 (packed_time_read 4 f _ _ rest _ _ Hh24 (or_intror (or_intror (or_introl (conj (or_intror eq_refl) (conj eq_refl (conj Hx (conj eq_refl eq_refl)))))))) Hlt ltac:(rewrite W; consts; clear - Hb Hx; lia))).
    rewrite (Fin _ (t_micro t + borrow_error 4)); [reflexivity| |]; change (borrow_error 4) with 10223616; rewrite ?W; consts.
    + clear - Hu. lia.
    + unfold f. clear - Hr Hu Hz Hb. lia.
Qed.

(** ** DATETIME *)
Lemma datetime_frac dec us int_part rest : dec <= 6 -> us < 1000000 -> us mod 10 ^ (6 - dec) = 0 -> int_part < 2 ^ 39 ->
  (match dec with
    | 0 => pret (trunc 64 (N.shiftl int_part 24))
    | 1 | 2 =>
        frac_part <- read_u8 ;;
        plift (cadd 64 (trunc 64 (N.shiftl int_part 24)) (frac_part * 10000))
    | 3 | 4 =>
        frac_part <- read_be_u16 ;;
        plift (cadd 64 (trunc 64 (N.shiftl int_part 24)) (frac_part * 100))
    | 5 | 6 =>
        frac_part <- read_be_u24 ;;
        plift (cadd 64 (trunc 64 (N.shiftl int_part 24)) frac_part)
    | _ => pfail EConstraint
    end) (frac_bytes dec us ++ rest) = (Ok (int_part * 2 ^ 24 + us), rest).
Proof.
  intros Hd Hu Hr Hi. change (2 ^ 39) with 549755813888 in Hi.
  assert (T : trunc 64 (N.shiftl int_part 24) = int_part * 2 ^ 24).
  { rewrite N.shiftl_mul_pow2. unfold trunc. apply N.mod_small. consts. clear - Hi. lia. }
  assert (C : forall x, x = us -> cadd 64 (int_part * 2 ^ 24) x = Ok (int_part * 2 ^ 24 + us)).
  { intros x ->. unfold cadd. destruct (N.leb_spec (2 ^ 64) (int_part * 2 ^ 24 + us)); [|reflexivity]. exfalso. consts. clear - H Hi Hu. lia. }
  rewrite T.
  assert (D : dec = 0 \/ dec = 1 \/ dec = 2 \/ dec = 3 \/ dec = 4 \/ dec = 5 \/ dec = 6) by lia.
  destruct D as [->|[->|[->|[->|[->|[->| ->]]]]]]; unfold frac_bytes.
  - change (10 ^ (6 - 0)) with 1000000 in Hr. replace us with 0 by (clear - Hu Hr; lia). rewrite N.add_0_r. reflexivity.
  - change (10 ^ (6 - 1)) with 100000 in Hr. change (wbe 1 (us / 10000)) with (wle 1 (us / 10000)).
    assert (us / 10000 < 2 ^ 8) by (consts; clear - Hu; lia). rstep. unfold plift. rewrite C; [reflexivity|]. clear - Hr. lia.
  - change (10 ^ (6 - 2)) with 10000 in Hr. change (wbe 1 (us / 10000)) with (wle 1 (us / 10000)).
    assert (us / 10000 < 2 ^ 8) by (consts; clear - Hu; lia). rstep. unfold plift. rewrite C; [reflexivity|]. clear - Hr. lia.
  - change (10 ^ (6 - 3)) with 1000 in Hr.
    assert (us / 100 < 2 ^ 16) by (consts; clear - Hu; lia). rstep. unfold plift. rewrite C; [reflexivity|]. clear - Hr. lia.
  - change (10 ^ (6 - 4)) with 100 in Hr.
    assert (us / 100 < 2 ^ 16) by (consts; clear - Hu; lia). rstep. unfold plift. rewrite C; [reflexivity|]. clear - Hr. lia.
  - assert (us < 2 ^ 24) by (consts; clear - Hu; lia). rstep. unfold plift. rewrite C; reflexivity.
  - assert (us < 2 ^ 24) by (consts; clear - Hu; lia). rstep. unfold plift. rewrite C; reflexivity.
Qed.

Lemma datetime_decodes dec t rest : stored_datetime dec t ->
  datetime_from_binlog dec (datetime_bytes dec t ++ rest) = (Ok t, rest).
Proof.
  intros (Hd & Hy & Hmo & Hda & Hh & Hmi & Hs & Hu & Hr). unfold datetime_bytes.
  set (I := ((dt_year t * 13 + dt_month t) * 2 ^ 5 + dt_day t) * 2 ^ 17 + (dt_hour t * 2 ^ 12 + dt_minute t * 2 ^ 6 + dt_second t)).
  assert (HI : I < 549755813888) by (unfold I; consts; clear - Hy Hmo Hda Hh Hmi Hs; lia).
  assert (P : packed_from_datetime_binary dec (wbe 5 (I + 549755813888) ++ frac_bytes dec (dt_micro t) ++ rest)
     = (Ok (I * 2 ^ 24 + dt_micro t), rest)).
  { unfold packed_from_datetime_binary.
    assert (I + 549755813888 < 2 ^ 40) by (consts; clear - HI; lia). rstep.
    assert (W : wsub 64 (I + 549755813888) 549755813888 = I) by (unfold wsub; consts; clear - HI; lia).
    assert (T : (N.land (I + 549755813888) 549755813888 =? 549755813888) = true).
    { change 549755813888 with (2 ^ 39). rewrite top_bit; [apply N.leb_le; lia|exact H]. }
    rewrite W, T. eapply eq_trans; [eapply pbind_ok; apply datetime_frac; try assumption|]. reflexivity. }
  rewrite <- app_assoc. unfold datetime_from_binlog. eapply eq_trans; [eapply pbind_ok; exact P|]. cbv beta zeta.
  unfold pret. f_equal. f_equal. unfold trunc. rewrite (land_ones' _ 40), (land_ones' _ 24) by reflexivity. rewrite !N.shiftr_div_pow2.
  change (N.shiftl 1 17) with 131072. change (N.shiftl 1 5) with 32. change (N.shiftl 1 6) with 64.
  assert (E : ((I * 2 ^ 24 + dt_micro t) / 2 ^ 24) mod 2 ^ 40 = I) by (consts; clear - HI Hu; lia).
  rewrite E. 
  set (hms := dt_hour t * 2 ^ 12 + dt_minute t * 2 ^ 6 + dt_second t) in *.
  set (ymd := (dt_year t * 13 + dt_month t) * 2 ^ 5 + dt_day t) in *.
  assert (Hhms : hms < 131072) by (unfold hms; consts; clear - Hh Hmi Hs; lia).
  assert (E1 : I / 2 ^ 17 = ymd) by (unfold I; consts; clear - Hhms; lia).
  assert (E2 : I mod 131072 = hms) by (unfold I; consts; clear - Hhms; lia).
  assert (E3 : ymd / 2 ^ 5 = dt_year t * 13 + dt_month t) by (unfold ymd; consts; clear - Hda; lia).
  rewrite E1, E2, E3. destruct t as [y mo d h mi s us]; cbn [dt_year dt_month dt_day dt_hour dt_minute dt_second dt_micro] in *.
  f_equal.
  - consts. clear - Hy Hmo. lia.
  - consts. clear - Hy Hmo. lia.
  - unfold ymd. consts. clear - Hda. lia.
  - unfold hms. consts. clear - Hh Hmi Hs. lia.
  - unfold hms. consts. clear - Hh Hmi Hs. lia.
  - unfold hms. consts. clear - Hh Hmi Hs. lia.
  - consts. clear - Hu. lia.
Qed.

(** five zero bytes are not a DATETIME any server writes; decoding them overflows *)
Lemma datetime_zero_bytes rest : fst (datetime_from_binlog 0 (x00 :: x00 :: x00 :: x00 :: x00 :: rest)) = Panic PArith.
Proof. reflexivity. Qed.

(** ** Text *)
Lemma digits_length k n : length (digits k n) = k.
Proof. revert n; induction k; intros n; [reflexivity|]. cbn [digits]. rewrite app_length, IHk. cbn. lia. Qed.
Lemma digit_val n : b2n (n2b (48 + n mod 10)) = 48 + n mod 10.
Proof. apply b2n_n2b_small. lia. Qed.
Lemma parse_digits_app a b acc : parse_digits (a ++ b) acc =
  match parse_digits a acc with Some acc => parse_digits b acc | None => None end.
Proof. revert acc; induction a; intros acc; [reflexivity|]. cbn. destruct (is_digit a); [apply IHa|reflexivity]. Qed.
Lemma parse_digits_digits k : forall n acc, n < 10 ^ N.of_nat k ->
  parse_digits (digits k n) acc = Some (acc * 10 ^ N.of_nat k + n).
Proof.
  induction k as [|k IH]; intros n acc H.
  - change (10 ^ N.of_nat 0) with 1 in *. cbn. f_equal. lia.
  - rewrite Nat2N.inj_succ, N.pow_succ_r' in *. cbn [digits]. rewrite parse_digits_app, IH by lia.
    cbn [parse_digits]. unfold is_digit. rewrite digit_val.
    destruct (N.leb_spec 48 (48 + n mod 10)); [|lia]. destruct (N.leb_spec (48 + n mod 10) 57); [|lia].
    cbn [andb]. f_equal. replace (48 + n mod 10 - 48) with (n mod 10) by lia.
    set (p := 10 ^ N.of_nat k). rewrite N.mul_add_distr_r, <- N.add_assoc. f_equal; lia.
Qed.
Lemma digits_in c k n : In c (digits k n) -> 48 <= b2n c <= 57.
Proof.
  revert n; induction k; intros n H; [contradiction|]. cbn [digits] in H. rewrite in_app_iff in H.
  destruct H as [H|[<-|[]]]; [eapply IHk; exact H|]. rewrite digit_val. lia.
Qed.
Lemma digits_cons k n : exists b r, digits (S k) n = b :: r /\ 48 <= b2n b <= 57.
Proof.
  pose proof (digits_length (S k) n). destruct (digits (S k) n) as [|b r] eqn:E; [discriminate|].
  exists b, r. split; [reflexivity|]. apply (digits_in b (S k) n). rewrite E. left; reflexivity.
Qed.
Lemma parse_nat_digits k n : n < 10 ^ N.of_nat (S k) -> parse_nat (digits (S k) n) = Some n.
Proof.
  intros H. unfold parse_nat. destruct (digits_cons k n) as (b & r & E & _). rewrite E at 1.
  rewrite parse_digits_digits by exact H. f_equal; lia.
Qed.
Lemma parse_u_digits bits k n : n < 10 ^ N.of_nat (S k) -> n < 2 ^ bits -> parse_u bits (digits (S k) n) = Ok n.
Proof.
  intros H Hb. unfold parse_u.
  assert ((match digits (S k) n with b :: r => if b2n b =? 43 then r else digits (S k) n | [] => [] end) = digits (S k) n) as ->.
  { destruct (digits_cons k n) as (b & r & E & Hd). rewrite E. destruct (N.eqb_spec (b2n b) 43); [lia|reflexivity]. }
  rewrite parse_nat_digits by exact H. destruct (N.ltb_spec n (2 ^ bits)); [reflexivity|lia].
Qed.
Lemma parse_i_digits bits k n : n < 10 ^ N.of_nat (S k) -> n < 2 ^ (bits - 1) ->
  parse_i bits (digits (S k) n) = Ok (Z.of_N n) /\
  parse_i bits (n2b 45 :: digits (S k) n) = Ok (- Z.of_N n)%Z.
Proof.
  intros H Hb. split; unfold parse_i.
  - assert ((match digits (S k) n with
     | b :: r => if b2n b =? 43 then (false, r) else if b2n b =? 45 then (true, r) else (false, digits (S k) n)
     | [] => (false, []) end) = (false, digits (S k) n)) as ->.
    { destruct (digits_cons k n) as (b & r & E & Hd). rewrite E. destruct (N.eqb_spec (b2n b) 43); [lia|].
      destruct (N.eqb_spec (b2n b) 45); [lia|reflexivity]. }
    rewrite parse_nat_digits by exact H. destruct (N.ltb_spec n (2 ^ (bits - 1))); [reflexivity|lia].
  - change (b2n (n2b 45)) with 45. change (45 =? 43) with false. change (45 =? 45) with true. cbv iota.
    rewrite parse_nat_digits by exact H. destruct (N.leb_spec n (2 ^ (bits - 1))); [reflexivity|lia].
Qed.

Lemma split_on_none c s : ~ In c s -> split_on c s = [s].
Proof.
  induction s as [|b s IH]; intros H; [reflexivity|]. cbn [split_on].
  destruct (byte_eqb_spec b c) as [->|]; [exfalso; apply H; left; reflexivity|].
  rewrite IH; [reflexivity|]. intros Hin; apply H; right; exact Hin.
Qed.
Lemma split_on_app c a s : ~ In c a -> split_on c (a ++ c :: s) = a :: split_on c s.
Proof.
  induction a as [|b a IH]; intros H; cbn [app split_on].
  - rewrite byte_eqb_refl. reflexivity.
  - destruct (byte_eqb_spec b c) as [->|]; [exfalso; apply H; left; reflexivity|].
    rewrite IH; [reflexivity|]. intros Hin; apply H; right; exact Hin.
Qed.
Lemma utf8_ascii s : (forall b, In b s -> b2n b < 128) -> utf8_valid s = true.
Proof.
  induction s as [|b s IH]; intros H; [reflexivity|]. cbn [utf8_valid].
  destruct (N.ltb_spec (b2n b) 128); [|specialize (H b (or_introl eq_refl)); lia].
  apply IH. intros x Hx. apply H. right. exact Hx.
Qed.
Lemma trim_start_id b s : 33 <= b2n b < 128 -> trim_start (b :: s) = b :: s.
Proof.
  intros H. cbn [trim_start].
  destruct (N.leb_spec (b2n b) 13); [lia|]. rewrite andb_false_r.
  destruct (N.eqb_spec (b2n b) 32); [lia|]. cbn [orb].
  destruct s as [|c s]; [reflexivity|].
  destruct (N.eqb_spec (b2n b) 0xc2); [lia|]. cbn [andb].
  destruct s as [|d s]; [reflexivity|].
  destruct (N.eqb_spec (b2n b) 0xe1); [lia|]. destruct (N.eqb_spec (b2n b) 0xe2); [lia|].
  destruct (N.eqb_spec (b2n b) 0xe3); [lia|]. reflexivity.
Qed.

(** what the parser returns on MySQL's text *)
Lemma time_text dec t : stored_time dec t ->
  time_from_text (text_time dec t)
  = Ok (mk_time (t_neg t && negb (hours_of t =? 0)) (t_days t) (t_hour t) (t_minute t) (t_second t) (text_micro dec (t_micro t))).
Proof.
  intros (Hd & Hh & Hhr & Hm & Hs & Hu & Hr & Hn).
  set (hd := if hours_of t <? 100 then 2%nat else 3%nat).
  set (H0 := digits hd (hours_of t)).
  assert (Hhd : exists k, hd = S k /\ hours_of t < 10 ^ N.of_nat (S k)).
  { unfold hd. destruct (N.ltb_spec (hours_of t) 100); eexists; (split; [reflexivity|]); cbn; lia. }
  set (fr := if dec =? 0 then [] else n2b 46 :: digits (N.to_nat dec) (t_micro t / 10 ^ (6 - dec))).
  assert (E : text_time dec t = ((if t_neg t then [n2b 45] else []) ++ H0) ++ n2b 58 :: digits 2 (t_minute t) ++ n2b 58 :: digits 2 (t_second t) ++ fr).
  { unfold text_time. rewrite <- app_assoc. reflexivity. }
  assert (Dig : forall k n c, In c (digits k n) -> c <> n2b 58 /\ c <> n2b 46 /\ b2n c < 128).
  { intros k n c Hc. apply digits_in in Hc. repeat split; [| |lia]; intros ->; revert Hc; vm_compute; intuition congruence. }
  assert (Frc : forall c, In c fr -> c <> n2b 58 /\ b2n c < 128).
  { intros c. unfold fr. destruct (dec =? 0); [contradiction|]. intros [<-|Hc]; [split; [discriminate|reflexivity]|].
    apply Dig in Hc. intuition. }
  assert (Sg : forall c, In c ((if t_neg t then [n2b 45] else []) ++ H0) -> c <> n2b 58 /\ b2n c < 128).
  { intros c Hc. apply in_app_iff in Hc. destruct Hc as [Hc|Hc].
    - destruct (t_neg t); [|contradiction]. destruct Hc as [<-|[]]. split; [discriminate|reflexivity].
    - apply Dig in Hc. intuition. }
  unfold time_from_text, from_utf8.
  assert (U : utf8_valid (text_time dec t) = true).
  { apply utf8_ascii. intros b. rewrite E. intros H. apply in_app_iff in H.
    destruct H as [H|[<-|H]]; [apply Sg in H; intuition|reflexivity|]. apply in_app_iff in H.
    destruct H as [H|[<-|H]]; [apply Dig in H; intuition|reflexivity|]. apply in_app_iff in H.
    destruct H as [H|H]; [apply Dig in H; intuition|apply Frc in H; intuition]. }
  rewrite U. cbn [rbind]. rewrite E.
  destruct Hhd as (k & Hk & Hlt).
  assert (T : forall s, trim_start (((if t_neg t then [n2b 45] else []) ++ H0) ++ s) = ((if t_neg t then [n2b 45] else []) ++ H0) ++ s).
  { intros s. destruct (t_neg t); cbn [app]; [apply trim_start_id; vm_compute; split; [discriminate|reflexivity]|].
    unfold H0. rewrite Hk. destruct (digits_cons k (hours_of t)) as (b & r & -> & Hb). apply trim_start_id. lia. }
  rewrite T, split_on_app by (intros Hc; apply Sg in Hc; intuition).
  rewrite split_on_app by (intros Hc; apply Dig in Hc; intuition).
  rewrite split_on_none.
  2: { intros Hc. apply in_app_iff in Hc. destruct Hc as [Hc|Hc]; [apply Dig in Hc|apply Frc in Hc]; intuition. }
  assert (PI : parse_i 64 ((if t_neg t then [n2b 45] else []) ++ H0) = Ok (if t_neg t then - Z.of_N (hours_of t) else Z.of_N (hours_of t))%Z).
  { unfold H0. rewrite Hk. destruct (parse_i_digits 64 k (hours_of t) Hlt ltac:(change (2 ^ (64 - 1)) with 9223372036854775808; lia)) as [P1 P2].
    destruct (t_neg t); assumption. }
  rewrite PI. cbn [rbind].
  set (z := (if t_neg t then - Z.of_N (hours_of t) else Z.of_N (hours_of t))%Z).
  destruct (Z.eqb_spec z (- 2 ^ 63)) as [Hz|_].
  { exfalso. unfold z in Hz. change (2 ^ 63)%Z with 9223372036854775808%Z in Hz. destruct (t_neg t); lia. }
  cbn [rbind].
  assert (A : trunc 32 (Z.abs_N z) = hours_of t).
  { unfold trunc, z. rewrite N.mod_small; consts; destruct (t_neg t); lia. }
  rewrite A, (parse_u_digits 8 1) by (cbn; lia). cbn [rbind].
  assert (Ng : (z <? 0)%Z = (t_neg t && negb (hours_of t =? 0))).
  { unfold z. destruct (t_neg t); cbn [andb]; destruct (N.eqb_spec (hours_of t) 0); lia. }
  rewrite Ng.
  assert (DH : hours_of t / 24 = t_days t /\ trunc 8 (hours_of t - t_days t * 24) = t_hour t).
  { unfold hours_of, trunc in *. change (2 ^ 8) with 256. clear - Hh. split; lia. }
  destruct DH as [-> ->].
  assert (PS : parse_u 8 (digits 2 (t_second t)) = Ok (t_second t)) by (apply parse_u_digits; cbn; lia).
  unfold fr. destruct (N.eqb_spec dec 0) as [->|Hnz].
  - rewrite app_nil_r, split_on_none by (intros Hc; apply Dig in Hc; intuition). rewrite PS. reflexivity.
  - rewrite split_on_app by (intros Hc; apply Dig in Hc; intuition).
    rewrite split_on_none by (intros Hc; apply Dig in Hc; intuition). rewrite PS. cbn [rbind].
    rewrite digits_length. 
    assert (D : dec = 1 \/ dec = 2 \/ dec = 3 \/ dec = 4 \/ dec = 5 \/ dec = 6) by lia.
    destruct D as [->|[->|[->|[->|[->| ->]]]]].
    + rewrite (parse_u_digits 32 0) by (cbn; lia). reflexivity.
    + rewrite (parse_u_digits 32 1) by (cbn; lia). reflexivity.
    + rewrite (parse_u_digits 32 2) by (cbn; lia). cbn [N.to_nat Nat.eqb rbind Pos.to_nat Pos.iter_op Nat.add].
      unfold cmul. change (10 ^ (6 - 3)) with 1000.
      destruct (N.leb_spec (2 ^ 32) (t_micro t / 1000 * 1000)); [exfalso; consts; lia|]. reflexivity.
    + rewrite (parse_u_digits 32 3) by (cbn; lia). reflexivity.
    + rewrite (parse_u_digits 32 4) by (cbn; lia). reflexivity.
    + rewrite (parse_u_digits 32 5) by (cbn; lia). reflexivity.
Qed.

Lemma time_text_exact dec t : stored_time dec t ->
  (t_neg t = true -> hours_of t <> 0) -> t_micro t = 0 \/ dec = 3 \/ dec = 6 ->
  time_from_text (text_time dec t) = Ok t.
Proof.
  intros Hst Hn Hm. rewrite time_text by exact Hst. destruct Hst as (Hd & _ & _ & _ & _ & _ & Hr & _).
  f_equal. destruct t as [neg d h m s us]; cbn [t_neg t_days t_hour t_minute t_second t_micro] in *. f_equal.
  - destruct neg; [|reflexivity]. specialize (Hn eq_refl). apply N.eqb_neq in Hn. rewrite Hn. reflexivity.
  - unfold text_micro. destruct Hm as [-> |[-> | ->]].
    + destruct (dec =? 0); [reflexivity|]. destruct (dec =? 3); [reflexivity|]. apply N.div_0_l. apply N.pow_nonzero. discriminate.
    + change (10 ^ (6 - 3)) with 1000 in Hr. change (3 =? 0) with false. change (3 =? 3) with true. cbv iota. clear - Hr. lia.
    + change (10 ^ (6 - 6)) with 1. change (6 =? 0) with false. change (6 =? 3) with false. cbv iota. apply N.div_1_r.
Qed.

Lemma time_text_fraction dec t : stored_time dec t -> t_micro t <> 0 -> dec <> 3 -> dec <> 6 ->
  exists t', time_from_text (text_time dec t) = Ok t' /\ t_micro t' < t_micro t.
Proof.
  intros Hst Hm H3 H6. rewrite time_text by exact Hst. destruct Hst as (Hd & _ & _ & _ & _ & Hu & Hr & _).
  eexists. split; [reflexivity|]. cbn [t_micro]. unfold text_micro.
  destruct (N.eqb_spec dec 0) as [->|]; [lia|]. destruct (N.eqb_spec dec 3); [contradiction|].
  apply N.div_lt; [lia|]. apply N.pow_gt_1; lia.
Qed.
