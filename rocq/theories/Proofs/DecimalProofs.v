(** Proofs about packed DECIMAL values and decimal numerals *)
From Verif Require Import Model.Base Model.BytesParser Model.Fmt Model.Decimal
  Spec.Nums Spec.Codec Spec.Wire Spec.Temporal Spec.DecimalSpec
  Proofs.BaseLemmas Proofs.BytesParserProofs Proofs.CodecProofs Proofs.WireLemmas Proofs.CmdProofs Proofs.TimeProofs.
Open Scope N_scope.

(** ** Numerals *)
Lemma size_bound n : n < 2 ^ N.of_nat (N.size_nat n).
Proof.
  destruct n as [|p]; [reflexivity|]. cbn [N.size_nat].
  induction p; cbn [Pos.size_nat]; rewrite ?Nat2N.inj_succ, ?N.pow_succ_r'; [lia|lia|reflexivity].
Qed.
Lemma dec_digits_spec fuel : forall n acc, n < 10 ^ N.of_nat (S fuel) ->
  exists k, dec_digits (S fuel) n acc = digits (S k) n ++ acc /\ n < 10 ^ N.of_nat (S k) /\ (k = O \/ 10 ^ N.of_nat k <= n).
Proof.
  induction fuel as [|fuel IH]; intros n acc H.
  - exists O. change (10 ^ N.of_nat 1) with 10 in *. cbn [dec_digits]. 
    rewrite N.div_small by exact H. change (0 =? 0) with true. cbv iota. split; [reflexivity|split; [exact H|left; reflexivity]].
  - cbn [dec_digits]. destruct (N.eqb_spec (n / 10) 0) as [E|E].
    + exists O. change (10 ^ N.of_nat 1) with 10. split; [reflexivity|split; [lia|left; reflexivity]].
    + destruct (IH (n / 10) (n2b (48 + n mod 10) :: acc)) as (k & E1 & E2 & E3).
      { rewrite Nat2N.inj_succ, N.pow_succ_r' in H. lia. }
      exists (S k). split; [|split].
      * cbn [dec_digits] in E1. rewrite E1. change (digits (S (S k)) n) with (digits (S k) (n / 10) ++ [n2b (48 + n mod 10)]).
        rewrite <- app_assoc. reflexivity.
      * rewrite Nat2N.inj_succ, N.pow_succ_r'. lia.
      * right. rewrite Nat2N.inj_succ, N.pow_succ_r'. destruct E3 as [->|E3]; [change (10 ^ N.of_nat 0) with 1|]; lia.
Qed.
Lemma fmt_n_numeral n : numeral n (fmt_n n).
Proof.
  unfold fmt_n, numeral. destruct (dec_digits_spec (N.size_nat n) n []) as (k & E1 & E2 & E3).
  - eapply N.lt_le_trans; [apply size_bound|]. transitivity (10 ^ N.of_nat (N.size_nat n)).
    + apply N.pow_le_mono_l. lia.
    + apply N.pow_le_mono_r; lia.
  - exists k. rewrite app_nil_r in E1. auto.
Qed.
Lemma pow10_lt j k : (j < k)%nat -> 10 ^ N.of_nat (S j) <= 10 ^ N.of_nat k.
Proof. intros H. apply N.pow_le_mono_r; lia. Qed.
Lemma numeral_unique n s t : numeral n s -> numeral n t -> s = t.
Proof.
  intros (j & -> & J1 & J2) (k & -> & K1 & K2).
  assert (j = k) as ->; [|reflexivity].
  destruct (Nat.lt_trichotomy j k) as [H|[H|H]]; [|exact H|]; exfalso; pose proof (pow10_lt _ _ H).
  - destruct K2 as [->|K2]; lia.
  - destruct J2 as [->|J2]; lia.
Qed.

Lemma digits_mod k : forall n, digits k (n mod 10 ^ N.of_nat k) = digits k n.
Proof.
  induction k as [|k IH]; intros n; [reflexivity|]. cbn [digits].
  rewrite Nat2N.inj_succ, N.pow_succ_r'. set (p := 10 ^ N.of_nat k) in *.
  assert (P : p <> 0) by (apply N.pow_nonzero; discriminate).
  rewrite N.mod_mul_r by (assumption || discriminate). f_equal.
  - replace ((n mod 10 + 10 * ((n / 10) mod p)) / 10) with ((n / 10) mod p) by lia. apply IH.
  - do 3 f_equal. lia.
Qed.
Lemma digits_app a b : forall n, digits (a + b) n = digits a (n / 10 ^ N.of_nat b) ++ digits b n.
Proof.
  induction b as [|b IH]; intros n.
  - rewrite Nat.add_0_r. change (10 ^ N.of_nat 0) with 1. rewrite N.div_1_r, app_nil_r. reflexivity.
  - rewrite <- plus_n_Sm. cbn [digits]. rewrite IH, <- app_assoc. do 2 f_equal.
    rewrite Nat2N.inj_succ, N.pow_succ_r', N.div_div by (try apply N.pow_nonzero; discriminate). reflexivity.
Qed.
Lemma group9_length k : forall n, length (group9 k n) = k.
Proof. induction k; intros n; [reflexivity|]. cbn [group9]. rewrite app_length, IHk. cbn; lia. Qed.
Lemma group9_bound k : forall n, Forall (fun g => g < 10 ^ 9) (group9 k n).
Proof.
  induction k; intros n; [constructor|]. cbn [group9]. apply Forall_app. split; [apply IHk|].
  repeat constructor. apply N.mod_lt. discriminate.
Qed.
Lemma group9_digits k : forall n, flat_map (digits 9) (group9 k n) = digits (9 * k) n.
Proof.
  induction k; intros n; [reflexivity|]. cbn [group9]. rewrite flat_map_app, IHk. cbn [flat_map]. rewrite app_nil_r.
  replace (9 * S k)%nat with (9 * k + 9)%nat by lia. rewrite digits_app. f_equal.
  exact (digits_mod 9 n).
Qed.
Lemma numeral_full9 g s : numeral g s -> full9 g -> g < 10 ^ 9 -> s = digits 9 g.
Proof.
  intros Hs Hf Hb. apply (numeral_unique g); [exact Hs|]. exists 8%nat. repeat split; [exact Hb|right; exact Hf].
Qed.
Lemma numerals_app gs hs s : numerals (gs ++ hs) s <-> exists a b, numerals gs a /\ numerals hs b /\ s = a ++ b.
Proof.
  revert s; induction gs as [|g gs IH]; intros s; cbn [app numerals].
  - split; [intros H; exists [], s; auto|intros (a & b & -> & H & ->); exact H].
  - split.
    + intros (a & b & Ha & Hb & ->). apply IH in Hb. destruct Hb as (b1 & b2 & H1 & H2 & ->).
      exists (a ++ b1), b2. rewrite <- app_assoc. split; [exists a, b1; auto|auto].
    + intros (x & b & (a & b1 & Ha & Hb & ->) & H2 & ->). exists a, (b1 ++ b). rewrite <- app_assoc.
      split; [exact Ha|]. split; [|reflexivity]. apply IH. exists b1, b. auto.
Qed.
Lemma numerals_full9 gs s : numerals gs s -> Forall full9 gs -> Forall (fun g => g < 10 ^ 9) gs -> s = flat_map (digits 9) gs.
Proof.
  revert s; induction gs as [|g gs IH]; intros s H Hf Hb; cbn [numerals flat_map] in *; [exact H|].
  destruct H as (a & b & Ha & Hb' & ->). inversion Hf; subst. inversion Hb; subst. f_equal.
  - apply numeral_full9; assumption.
  - apply IH; assumption.
Qed.
Lemma numerals_map gs : numerals gs (flat_map fmt_n gs).
Proof.
  induction gs as [|g gs IH]; [reflexivity|]. cbn. exists (fmt_n g), (flat_map fmt_n gs). split; [apply fmt_n_numeral|auto].
Qed.

(** ** Bit tricks *)
Lemma lxor_ones m k : m < 2 ^ k -> N.lxor m (N.ones k) = 2 ^ k - 1 - m.
Proof.
  intros H. change (N.lxor m (N.ones k)) with (N.lnot m k). destruct (N.eq_dec m 0) as [->|Hm].
  - rewrite N.lnot_0_l, N.ones_equiv. lia.
  - rewrite N.lnot_sub_low; [rewrite N.ones_equiv; lia|]. apply N.log2_lt_pow2; lia.
Qed.
Lemma lxor_pow2 m k : m < 2 ^ k -> N.lxor m (2 ^ k) = m + 2 ^ k.
Proof.
  intros H. symmetry. apply N.add_nocarry_lxor. rewrite land_bit, N.testbit_eqb, N.div_small by exact H. reflexivity.
Qed.
Lemma lxor_pow2' m k : m < 2 ^ k -> N.lxor (m + 2 ^ k) (2 ^ k) = m.
Proof. intros H. rewrite <- (lxor_pow2 m k H), N.lxor_assoc, N.lxor_nilpotent. apply N.lxor_0_r. Qed.

Lemma complement_val b : complement b = n2b (255 - b2n b).
Proof. destruct b; reflexivity. Qed.
Lemma complement_wle k : forall n, n < 2 ^ (8 * N.of_nat k) ->
  map complement (wle k n) = wle k (2 ^ (8 * N.of_nat k) - 1 - n).
Proof.
  induction k as [|k IH]; intros n H; [reflexivity|]. cbn [wle map].
  replace (8 * N.of_nat (S k)) with (8 + 8 * N.of_nat k) in * by lia. rewrite N.pow_add_r in *. change (2 ^ 8) with 256 in *.
  rewrite IH by lia. set (p := 2 ^ (8 * N.of_nat k)) in *.
  assert (E : (256 * p - 1 - n) / 256 = p - 1 - n / 256) by (clear - H; lia).
  assert (E2 : (256 * p - 1 - n) mod 256 = 255 - n mod 256) by (clear - H; lia).
  rewrite E, E2. f_equal. rewrite complement_val. f_equal. rewrite b2n_n2b, N.mod_mod by discriminate. reflexivity.
Qed.
Lemma complement_wbe k n : n < 2 ^ (8 * N.of_nat k) -> map complement (wbe k n) = wbe k (2 ^ (8 * N.of_nat k) - 1 - n).
Proof. intros H. unfold wbe. rewrite map_rev, complement_wle by exact H. reflexivity. Qed.
Lemma wbe_cons k n : wbe (S k) n = n2b (n / 2 ^ (8 * N.of_nat k)) :: wbe k n.
Proof.
  unfold wbe. replace (S k) with (k + 1)%nat by lia. rewrite wle_app, rev_app_distr. cbn [wle rev app]. f_equal.
  apply b2n_inj. rewrite !b2n_n2b. apply N.mod_mod. discriminate.
Qed.
Lemma wbe_high k n h : wbe k (n + h * 2 ^ (8 * N.of_nat k)) = wbe k n.
Proof.
  unfold wbe. f_equal. rewrite <- (wle_mod k), N.mod_add by (apply N.pow_nonzero; discriminate). apply wle_mod.
Qed.

(** the first fragment with its sign bit, as stored *)
Definition sign_flip (k : nat) (neg : bool) (g : N) : N :=
  if neg then 2 ^ (8 * N.of_nat k + 7) - 1 - g else g + 2 ^ (8 * N.of_nat k + 7).
Lemma flip_first_wbe k (neg : bool) g : g < 2 ^ (8 * N.of_nat k + 7) ->
  flip_first (if neg then map complement (wbe (S k) g) else wbe (S k) g) = wbe (S k) (sign_flip k neg g)
  /\ exists b tl, wbe (S k) (sign_flip k neg g) = b :: tl /\ (N.land (b2n b) 0x80 =? 0x80) = negb neg.
Proof.
  intros H.
  assert (P2 : 2 ^ (8 * N.of_nat (S k)) = 2 * 2 ^ (8 * N.of_nat k + 7)).
  { replace (8 * N.of_nat (S k)) with (N.succ (8 * N.of_nat k + 7)) by lia. apply N.pow_succ_r'. }
  assert (P7 : 2 ^ (8 * N.of_nat k + 7) = 128 * 2 ^ (8 * N.of_nat k)).
  { rewrite N.pow_add_r. change (2 ^ 7) with 128. lia. }
  set (p := 2 ^ (8 * N.of_nat k)) in *.
  assert (Pp : p <> 0) by (apply N.pow_nonzero; discriminate).
  (* a generic fact: flipping the top bit of [x] *)
  assert (F : forall x : N, x < 128 * p ->
     flip_first (wbe (S k) x) = wbe (S k) (x + 128 * p) /\ flip_first (wbe (S k) (x + 128 * p)) = wbe (S k) x).
  { intros x Hx. rewrite !wbe_cons. fold p. cbn [flip_first].
    assert (E : (x + 128 * p) / p = x / p + 128) by (rewrite N.add_comm, N.div_add_l by exact Pp; lia). rewrite E.
    assert (Hd : x / p < 128) by (apply N.div_lt_upper_bound; lia).
    assert (T : wbe k (x + 128 * p) = wbe k x) by apply (wbe_high k x 128).
    rewrite T. rewrite !b2n_n2b_small by lia.
    change 0x80 with (2 ^ 7) at 1 3. rewrite lxor_pow2, lxor_pow2' by exact Hd. auto. }
  unfold sign_flip. rewrite P7. split.
  - destruct neg.
    + rewrite complement_wbe by (rewrite P2; lia). rewrite P2, P7.
      replace (2 * (128 * p) - 1 - g) with ((128 * p - 1 - g) + 128 * p) by lia. apply F. lia.
    + apply F. lia.
  - rewrite wbe_cons. fold p. eexists _, _. split; [reflexivity|].
    destruct neg.
    + assert (Hd : (128 * p - 1 - g) / p < 128) by (apply N.div_lt_upper_bound; lia).
      rewrite b2n_n2b_small by lia. set (x := (128 * p - 1 - g) / p) in *.
      pose proof (top_bit x 7) as T; change (2 ^ (7 + 1)) with 256 in T; change (2 ^ 7) with 128 in T; rewrite T by lia.
      cbn [negb]. apply N.leb_gt. exact Hd.
    + assert (E : (g + 128 * p) / p = g / p + 128) by (rewrite N.add_comm, N.div_add_l by exact Pp; lia). rewrite E.
      assert (Hd : g / p < 128) by (apply N.div_lt_upper_bound; lia).
      set (x := g / p) in *. rewrite b2n_n2b_small by lia.
      pose proof (top_bit (x + 128) 7) as T; change (2 ^ (7 + 1)) with 256 in T; change (2 ^ 7) with 128 in T; rewrite T by lia.
      cbn [negb]. apply N.leb_le. lia.
Qed.

(** reading it back *)
Lemma sign_unflip k (neg : bool) g : g < 2 ^ (8 * N.of_nat k + 7) ->
  sign_flip k neg g < 2 ^ (8 * N.of_nat (S k)) /\
  (let n := N.lxor (sign_flip k neg g) (2 ^ (8 * N.of_nat k + 7)) in
   if neg then N.lxor n (N.ones (8 * N.of_nat (S k))) else n) = g.
Proof.
  intros H.
  assert (P2 : 2 ^ (8 * N.of_nat (S k)) = 2 * 2 ^ (8 * N.of_nat k + 7)).
  { replace (8 * N.of_nat (S k)) with (N.succ (8 * N.of_nat k + 7)) by lia. apply N.pow_succ_r'. }
  set (q := 2 ^ (8 * N.of_nat k + 7)) in *. unfold sign_flip. fold q. cbv zeta. destruct neg.
  - split; [lia|]. unfold q. rewrite lxor_pow2 by (fold q; lia). fold q. rewrite lxor_ones by (rewrite P2; lia). rewrite P2. lia.
  - split; [lia|]. unfold q. apply lxor_pow2'. exact H.
Qed.

Lemma read_extra_first k neg g rest : (k < 4)%nat -> g < 2 ^ (8 * N.of_nat k + 7) ->
  read_extra_fragment true (N.of_nat (S k)) neg (wbe (S k) (sign_flip k neg g) ++ rest) = (Ok g, rest).
Proof.
  intros Hk Hg. destruct (sign_unflip k neg g Hg) as [Hb Hu]. cbv zeta in Hu.
  set (s := sign_flip k neg g) in *.
  assert (Hgb : g < 2 ^ (8 * N.of_nat (S k))).
  { eapply N.lt_le_trans; [exact Hg|]. apply N.pow_le_mono_r; lia. }
  destruct k as [|[|[|[|k]]]]; [| | | |lia]; cbn [N.of_nat Pos.of_succ_nat Pos.succ] in *; unfold read_extra_fragment.
  - change (wbe 1 s) with (wle 1 s). rstep. unfold pret. do 2 f_equal. destruct neg; exact Hu.
  - rstep. unfold pret. do 2 f_equal. destruct neg; exact Hu.
  - rstep. unfold pret. do 2 f_equal. rewrite (land_ones' _ 24) by reflexivity. 
    transitivity (g mod 2 ^ 24); [f_equal; destruct neg; exact Hu|]. apply N.mod_small. exact Hgb.
  - rstep. unfold pret. do 2 f_equal. destruct neg; exact Hu.
Qed.

(** other fragments *)
Definition cpl (k : nat) (neg : bool) (g : N) : bytes := if neg then map complement (wbe k g) else wbe k g.
Lemma cpl_wbe k (neg : bool) g : g < 2 ^ (8 * N.of_nat k) ->
  exists m, cpl k neg g = wbe k m /\ m < 2 ^ (8 * N.of_nat k) /\ (if neg then N.lxor m (N.ones (8 * N.of_nat k)) else m) = g.
Proof.
  intros H. destruct neg; unfold cpl.
  - exists (2 ^ (8 * N.of_nat k) - 1 - g). split; [apply complement_wbe; exact H|]. split; [lia|]. rewrite lxor_ones by lia. lia.
  - exists g. auto.
Qed.
Lemma read_fragment_spec neg g rest : g < 2 ^ 32 -> read_fragment neg (cpl 4 neg g ++ rest) = (Ok g, rest).
Proof.
  intros H. destruct (cpl_wbe 4 neg g H) as (m & -> & Hm & E). change (2 ^ (8 * N.of_nat 4)) with (2 ^ 32) in Hm.
  unfold read_fragment. rstep. unfold pret. rewrite <- E. destruct neg; reflexivity.
Qed.
Lemma read_extra_last k neg g rest : (0 < k <= 4)%nat -> g < 2 ^ (8 * N.of_nat k) ->
  read_extra_fragment false (N.of_nat k) neg (cpl k neg g ++ rest) = (Ok g, rest).
Proof.
  intros Hk Hg. destruct (cpl_wbe k neg g Hg) as (m & -> & Hm & E).
  destruct k as [|[|[|[|[|k]]]]]; [lia| | | | |lia]; cbn [N.of_nat Pos.of_succ_nat Pos.succ] in *; unfold read_extra_fragment.
  - change (wbe 1 m) with (wle 1 m). rstep. unfold pret. rewrite <- E. destruct neg; reflexivity.
  - rstep. unfold pret. rewrite <- E. destruct neg; reflexivity.
  - rstep. unfold pret. do 2 f_equal. rewrite (land_ones' _ 24) by reflexivity.
    transitivity (g mod 2 ^ 24); [f_equal; rewrite <- E; destruct neg; reflexivity|]. apply N.mod_small. exact Hg.
  - rstep. unfold pret. rewrite <- E. destruct neg; reflexivity.
Qed.

Lemma wbes_app ws1 gs1 ws2 gs2 : length ws1 = length gs1 -> wbes (ws1 ++ ws2) (gs1 ++ gs2) = wbes ws1 gs1 ++ wbes ws2 gs2.
Proof.
  revert gs1; induction ws1 as [|w ws1 IH]; intros [|g gs1] H; try discriminate; [reflexivity|].
  cbn [app wbes]. rewrite <- app_assoc, IH by (injection H; auto). reflexivity.
Qed.
Lemma wbes_4 gs k : length gs = k -> wbes (repeat 4%nat k) gs = flat_map (wbe 4) gs.
Proof. intros <-. induction gs as [|g gs IH]; [reflexivity|]. cbn [length repeat wbes flat_map]. rewrite IH. reflexivity. Qed.
Lemma cpl_flat (neg : bool) gs : (if neg then map complement (flat_map (wbe 4) gs) else flat_map (wbe 4) gs) = flat_map (cpl 4 neg) gs.
Proof.
  destruct neg; unfold cpl; [|reflexivity]. induction gs as [|g gs IH]; [reflexivity|].
  cbn [flat_map]. rewrite map_app, IH. reflexivity.
Qed.

Lemma read_fragments neg k n rest :
  prepeat k (read_fragment neg) (flat_map (cpl 4 neg) (group9 k n) ++ rest) = (Ok (group9 k n), rest).
Proof.
  rewrite <- (group9_length k n) at 1. apply prepeat_app. intros a r Ha. apply read_fragment_spec.
  pose proof (group9_bound k n) as F. rewrite Forall_forall in F. specialize (F a Ha). cbn beta in F.
  change (10 ^ 9) with 1000000000 in F. consts. lia.
Qed.

Definition frac_buf (frac f : N) : list N :=
  group9 (N.to_nat (frac / 9)) (f / 10 ^ (frac mod 9)) ++
  (if frac mod 9 =? 0 then [] else [f mod 10 ^ (frac mod 9) * 10 ^ (9 - frac mod 9)]).

(** all digits of [frac mod 9] at once *)
Lemma mod9_cases x : x mod 9 = 0 \/ x mod 9 = 1 \/ x mod 9 = 2 \/ x mod 9 = 3 \/ x mod 9 = 4 \/ x mod 9 = 5 \/ x mod 9 = 6 \/ x mod 9 = 7 \/ x mod 9 = 8.
Proof. lia. Qed.

Lemma read_decimal_spec intg frac neg i f rest :
  intg mod 9 <> 0 -> i < 10 ^ intg ->
  read_decimal intg frac (decimal_bytes intg frac neg i f ++ rest)
  = (Ok (mk_dec intg frac neg (int_groups intg i ++ frac_buf frac f)), rest).
Proof.
  intros Hx Hi.
  set (k := intg / 9). set (r := intg mod 9) in *.
  assert (Er : intg - intg / DIG_PER_DEC1 * DIG_PER_DEC1 = r) by (unfold r, DIG_PER_DEC1; clear; lia).
  assert (Ef : frac - frac / DIG_PER_DEC1 * DIG_PER_DEC1 = frac mod 9) by (unfold DIG_PER_DEC1; clear; lia).
  assert (Ei : int_groups intg i = i / 10 ^ (9 * k) :: group9 (N.to_nat k) (i mod 10 ^ (9 * k))).
  { unfold int_groups. fold r k. apply N.eqb_neq in Hx. rewrite Hx. reflexivity. }
  assert (Hg : i / 10 ^ (9 * k) < 10 ^ r).
  { apply N.div_lt_upper_bound; [apply N.pow_nonzero; discriminate|]. rewrite <- N.pow_add_r.
    replace (9 * k + r) with intg; [exact Hi|]. unfold k, r. clear. lia. }
  set (g := i / 10 ^ (9 * k)) in *.
  assert (Hw : exists w, dig_bytes r = S w /\ (w < 4)%nat /\ tget DIG_TO_BYTES r = Ok (N.of_nat (S w)) /\ g < 2 ^ (8 * N.of_nat w + 7)).
  { destruct (mod9_cases intg) as [H|[H|[H|[H|[H|[H|[H|[H|H]]]]]]]]; fold r in H; [contradiction|..];
      rewrite H in Hg |- *; eexists; (split; [reflexivity|]); (split; [lia|]); (split; [reflexivity|]);
      (eapply N.lt_le_trans; [exact Hg|]); vm_compute; discriminate. }
  destruct Hw as (w & Hw1 & Hw2 & Hw3 & Hgw).
  (* the bytes *)
  set (gi := group9 (N.to_nat k) (i mod 10 ^ (9 * k))) in *.
  set (gf := group9 (N.to_nat (frac / 9)) (f / 10 ^ (frac mod 9))).
  set (last := if frac mod 9 =? 0 then [] else [f mod 10 ^ (frac mod 9)]).
  set (lastw := if frac mod 9 =? 0 then [] else [dig_bytes (frac mod 9)]).
  assert (B : decimal_bytes intg frac neg i f ++ rest =
     wbe (S w) (sign_flip w neg g) ++ flat_map (cpl 4 neg) gi ++ flat_map (cpl 4 neg) gf ++
     (if neg then map complement (wbes lastw last) else wbes lastw last) ++ rest).
  { assert (B1 : wbes (int_widths intg ++ frac_widths frac) (int_groups intg i ++ frac_groups frac f)
       = wbe (S w) g ++ flat_map (wbe 4) gi ++ flat_map (wbe 4) gf ++ wbes lastw last).
    { unfold int_widths, frac_widths. rewrite Ei. fold r k. pose proof Hx as Hx'. apply N.eqb_neq in Hx'. rewrite Hx', Hw1.
      cbn [app wbes]. f_equal. unfold frac_groups. fold gf last lastw.
      rewrite wbes_app by (rewrite repeat_length; symmetry; apply group9_length).
      rewrite wbes_app by (rewrite repeat_length; symmetry; apply group9_length).
      rewrite !wbes_4 by apply group9_length. reflexivity. }
    unfold decimal_bytes. rewrite B1.
    destruct (flip_first_wbe w neg g Hgw) as [Fl (b & tl & Eb & _)].
    rewrite <- !cpl_flat. rewrite Eb in Fl |- *.
    assert (Fa : forall x y, x <> [] -> flip_first (x ++ y) = flip_first x ++ y) by (intros [|? ?] y H; [contradiction|reflexivity]).
    assert (Nn : wbe (S w) g <> []) by (rewrite wbe_cons; discriminate).
    destruct neg.
    - rewrite !map_app, Fa, Fl by (intros H; apply map_eq_nil in H; contradiction). rewrite <- !app_assoc. reflexivity.
    - rewrite Fa, Fl by exact Nn. rewrite <- !app_assoc. reflexivity. }
  destruct (flip_first_wbe w neg g Hgw) as [_ (b & tl & Eb & Eneg)].
  rewrite B. unfold read_decimal. rewrite Er, Ef.
  assert (Hl : exists lw, tget DIG_TO_BYTES (frac mod 9) = Ok (N.of_nat lw) /\ (frac mod 9 <> 0 -> lw = dig_bytes (frac mod 9) /\ (0 < lw <= 4)%nat /\
      f mod 10 ^ (frac mod 9) < 2 ^ (8 * N.of_nat lw) /\ tget POWERS_10 (9 - frac mod 9) = Ok (10 ^ (9 - frac mod 9)) /\
      f mod 10 ^ (frac mod 9) * 10 ^ (9 - frac mod 9) < 2 ^ 32)).
  { assert (HM : f mod 10 ^ (frac mod 9) < 10 ^ (frac mod 9)) by (apply N.mod_lt, N.pow_nonzero; discriminate).
    set (x := f mod 10 ^ (frac mod 9)) in *. clearbody x.
    pose proof (mod9_cases frac) as C. set (y := frac mod 9) in *. clearbody y. clear - HM C.
    destruct C as [->|[->|[->|[->|[->|[->|[->|[->| ->]]]]]]]].
    { exists 0%nat. split; [reflexivity|]. intros H'; contradiction. }
    all: match goal with |- context [tget DIG_TO_BYTES ?y] => exists (dig_bytes y) end; (split; [reflexivity|]); intros _; (split; [reflexivity|]); (split; [cbn; lia|]);
      (split; [eapply N.lt_le_trans; [exact HM|]; vm_compute; discriminate|]); (split; [reflexivity|]);
      (eapply N.le_lt_trans; [apply N.mul_le_mono_r, N.lt_le_incl; exact HM|]; reflexivity). }
  destruct Hl as (lw & Hl1 & Hl2).
  eapply eq_trans; [eapply pbind_ok; unfold plift; rewrite Hw3; reflexivity|].
  eapply eq_trans; [eapply pbind_ok; unfold plift; rewrite Hl1; reflexivity|].
  cbv beta. rewrite Eb at 1. cbn [app]. rewrite Eneg.
  rewrite Bool.negb_involutive. change (intg / DIG_PER_DEC1) with k. change (frac / DIG_PER_DEC1) with (frac / 9).
  assert (Hr : (0 <? r) = true) by (apply N.ltb_lt; clear - Hx; lia). rewrite Hr.
  eapply eq_trans; [eapply pbind_ok; eapply eq_trans; [eapply pbind_ok; apply read_extra_first; assumption|reflexivity]|].
  eapply eq_trans; [eapply pbind_ok; apply read_fragments|].
  eapply eq_trans; [eapply pbind_ok; apply read_fragments|].
  change DIG_PER_DEC1 with 9. unfold frac_buf. unfold last, lastw. clear B.
  destruct (N.eqb_spec (frac mod 9) 0) as [E0|E0].
  - rewrite E0. change (0 <? 0) with false. cbv iota. eapply eq_trans; [eapply pbind_ok; reflexivity|].
    cbn [wbes map app]. rewrite Ei. destruct neg; cbn [map app]; unfold pret; rewrite !app_nil_r, <- ?app_assoc; reflexivity.
  - assert (H0 : (0 <? frac mod 9) = true) by (apply N.ltb_lt; clear - E0; lia). rewrite H0.
    destruct (Hl2 E0) as (L1 & L2 & L3 & L4 & L5). cbn [wbes]. rewrite app_nil_r, <- L1.
    match goal with |- context [(if neg then ?x else ?y) ++ rest] => change (if neg then x else y) with (cpl lw neg (f mod 10 ^ (frac mod 9))) end.
    eapply eq_trans.
    { eapply pbind_ok. eapply eq_trans; [eapply pbind_ok; apply read_extra_last; assumption|].
      eapply eq_trans; [eapply pbind_ok; unfold plift; rewrite L4; reflexivity|].
      eapply eq_trans; [eapply pbind_ok; unfold plift, cmul; apply N.leb_gt in L5; rewrite L5; reflexivity|reflexivity]. }
    rewrite Ei. reflexivity.
Qed.

(** ** Printing *)
Lemma fmt_frags_spec d gs : forall pre post, d_buf d = pre ++ gs ++ post ->
  fmt_frags d (length pre) (length gs) = Ok (flat_map fmt_n gs).
Proof.
  induction gs as [|g gs IH]; intros pre post H; [reflexivity|]. cbn [length fmt_frags flat_map].
  unfold buf_at. rewrite H, nth_error_app2, Nat.sub_diag by apply le_n. cbn [app nth_error rbind].
  specialize (IH (pre ++ [g]) post). rewrite app_length in IH. cbn [length] in IH. rewrite Nat.add_1_r in IH.
  rewrite IH; [reflexivity|]. rewrite H, <- app_assoc. reflexivity.
Qed.

Lemma fmt_decimal_spec intg frac neg i f : intg mod 9 <> 0 ->
  exists s, fmt_decimal (mk_dec intg frac neg (int_groups intg i ++ frac_buf frac f)) = Ok s /\ unpadded_text intg frac neg i f s.
Proof.
  intros Hx. set (k := intg / 9). set (r := intg mod 9) in *.
  assert (Er : intg - intg / DIG_PER_DEC1 * DIG_PER_DEC1 = r) by (unfold r, DIG_PER_DEC1; clear; lia).
  assert (Ef : frac - frac / DIG_PER_DEC1 * DIG_PER_DEC1 = frac mod 9) by (unfold DIG_PER_DEC1; clear; lia).
  assert (Ei : int_groups intg i = i / 10 ^ (9 * k) :: group9 (N.to_nat k) (i mod 10 ^ (9 * k))).
  { unfold int_groups. fold r k. apply N.eqb_neq in Hx. rewrite Hx. reflexivity. }
  unfold unpadded_text. rewrite Ei. unfold frac_buf, frac_groups.
  set (g := i / 10 ^ (9 * k)). set (gi := group9 (N.to_nat k) (i mod 10 ^ (9 * k))).
  set (gf := group9 (N.to_nat (frac / 9)) (f / 10 ^ (frac mod 9))).
  set (d := mk_dec _ _ _ _).
  assert (Li : length gi = N.to_nat k) by apply group9_length.
  assert (Lf : length gf = N.to_nat (frac / 9)) by apply group9_length.
  assert (Fi : fmt_frags d 1 (N.to_nat k) = Ok (flat_map fmt_n gi)).
  { rewrite <- Li. apply (fmt_frags_spec d gi [g] (gf ++ (if frac mod 9 =? 0 then [] else [f mod 10 ^ (frac mod 9) * 10 ^ (9 - frac mod 9)]))). reflexivity. }
  assert (Ff : fmt_frags d (1 + N.to_nat k) (N.to_nat (frac / 9)) = Ok (flat_map fmt_n gf)).
  { rewrite <- Lf, <- Li. apply (fmt_frags_spec d gf (g :: gi) (if frac mod 9 =? 0 then [] else [f mod 10 ^ (frac mod 9) * 10 ^ (9 - frac mod 9)])). reflexivity. }
  assert (Hr : (0 <? r) = true) by (apply N.ltb_lt; clear - Hx; lia).
  unfold fmt_decimal. change (d_intg d) with intg. change (d_frac d) with frac. change (d_neg d) with neg. rewrite Er, Ef, Hr.
  change (intg / DIG_PER_DEC1) with k. change (frac / DIG_PER_DEC1) with (frac / 9).
  change (buf_at d 0) with (Ok g). cbn [rmap rbind]. rewrite Fi, Ff. cbn [rbind].
  change (match d_buf d with [] => Ok (fmt_n 0) | _ :: _ => ?x end) with x.
  assert (Hn : numerals (g :: gi) (fmt_n g ++ flat_map fmt_n gi)) by apply (numerals_map (g :: gi)).
  destruct (N.eqb_spec frac 0) as [E0|E0].
  - eexists. split; [reflexivity|]. eexists _, _. split; [exact Hn|]. split; [apply (numerals_map (gf ++ _))|].
    rewrite app_nil_r. reflexivity.
  - cbn [rbind]. destruct (N.eqb_spec (frac mod 9) 0) as [E1|E1].
    + rewrite E1. change (0 <? 0) with false. cbv iota. cbn [rbind]. eexists. split; [reflexivity|].
      exists (fmt_n g ++ flat_map fmt_n gi), (flat_map fmt_n gf). split; [exact Hn|].
      rewrite app_nil_r. split; [apply numerals_map|]. rewrite app_nil_r, <- !app_assoc. reflexivity.
    + assert (H0 : (0 <? frac mod 9) = true) by (apply N.ltb_lt; clear - E1; lia). rewrite H0.
      assert (P10 : tget POWERS_10 (DIG_PER_DEC1 - frac mod 9) = Ok (10 ^ (9 - frac mod 9))).
      { pose proof (mod9_cases frac) as C. set (y := frac mod 9) in *. clearbody y. clear - C E1.
        destruct C as [->|[->|[->|[->|[->|[->|[->|[->| ->]]]]]]]]; reflexivity. }
      assert (B0 : buf_at d (1 + N.to_nat k + N.to_nat (frac / 9)) = Ok (f mod 10 ^ (frac mod 9) * 10 ^ (9 - frac mod 9))).
      { unfold buf_at, d. cbn [d_buf]. rewrite app_assoc, nth_error_app2.
        - rewrite app_length. cbn [length]. rewrite Li, Lf. replace (_ - _)%nat with O by lia. reflexivity.
        - rewrite app_length. cbn [length]. rewrite Li, Lf. apply le_n. }
      rewrite B0, P10. cbn [rbind]. rewrite N.div_mul by (apply N.pow_nonzero; discriminate).
      eexists. split; [reflexivity|].
      exists (fmt_n g ++ flat_map fmt_n gi), (flat_map fmt_n (gf ++ [f mod 10 ^ (frac mod 9)])). split; [exact Hn|].
      split; [apply numerals_map|]. rewrite flat_map_app. cbn [flat_map]. rewrite app_nil_r, <- !app_assoc. reflexivity.
Qed.

(** ** When is the printed text right? *)
Lemma pow10_nz k : 10 ^ k <> 0. Proof. apply N.pow_nonzero. discriminate. Qed.
Lemma digits_no_dot k : forall n, ~ In (n2b 46) (digits k n).
Proof.
  induction k as [|k IH]; intros n H; [exact H|]. cbn [digits] in H. apply in_app_iff in H.
  destruct H as [H|[H|[]]]; [exact (IH _ H)|].
  assert (E : b2n (n2b (48 + n mod 10)) = b2n (n2b 46)) by (f_equal; exact H).
  rewrite !b2n_n2b_small in E by (try reflexivity; lia). lia.
Qed.
Lemma dot_split (a b x y : bytes) (d : byte) : ~ In d a -> ~ In d b -> a ++ d :: x = b ++ d :: y -> a = b /\ x = y.
Proof.
  revert b; induction a as [|h a IH]; intros [|h' b] Ha Hb E; cbn in *.
  - injection E as E. auto.
  - injection E as E1 E2. exfalso; apply Hb; left; auto.
  - injection E as E1 E2. exfalso; apply Ha; left; auto.
  - injection E as E1 E2. destruct (IH b) as [-> ->]; auto. subst. auto.
Qed.
Lemma numeral_no_dot n s : numeral n s -> ~ In (n2b 46) s.
Proof. intros (k & -> & _). apply digits_no_dot. Qed.
Lemma numerals_no_dot gs : forall s, numerals gs s -> ~ In (n2b 46) s.
Proof.
  induction gs as [|g gs IH]; intros s H; cbn in H; [subst; intros []|].
  destruct H as (a & b & Ha & Hb & ->). intros H. apply in_app_iff in H. destruct H as [H|H].
  - exact (numeral_no_dot _ _ Ha H).
  - exact (IH _ Hb H).
Qed.
Lemma numeral_length g s k : numeral g s -> g < 10 ^ N.of_nat (S k) ->
  (length s <= S k)%nat /\ (length s = S k -> k = O \/ 10 ^ N.of_nat k <= g).
Proof.
  intros (j & -> & J1 & J2) H. rewrite digits_length. split.
  - destruct (Nat.lt_ge_cases k j) as [L|L]; [|lia]. destruct J2 as [->|J2]; [lia|].
    assert (10 ^ N.of_nat (S k) <= 10 ^ N.of_nat j) by (apply N.pow_le_mono_r; lia). lia.
  - intros E. injection E as <-. exact J2.
Qed.
Lemma numerals_length gs : forall s, Forall (fun g => g < 10 ^ 9) gs -> numerals gs s ->
  (length s <= 9 * length gs)%nat /\ (length s = 9 * length gs -> Forall full9 gs)%nat.
Proof.
  induction gs as [|g gs IH]; intros s F H; cbn [numerals] in H; [subst; split; [apply le_n|constructor]|].
  destruct H as (a & b & Ha & Hb & ->). inversion F; subst. destruct (IH b) as [I1 I2]; [assumption..|].
  destruct (numeral_length g a 8 Ha) as [N1 N2]; [assumption|]. rewrite app_length. cbn [length]. split; [lia|].
  intros E. constructor; [|apply I2; lia]. destruct N2 as [N2|N2]; [lia|discriminate|exact N2].
Qed.
Lemma numeral_first n s : numeral n s -> n <> 0 -> exists c t, s = c :: t /\ c <> n2b 48.
Proof.
  intros (j & -> & J1 & J2) Hn.
  assert (E : digits (S j) n = digits 1 (n / 10 ^ N.of_nat j) ++ digits j n) by apply (digits_app 1 j).
  rewrite E. cbn [digits app]. eexists _, _. split; [reflexivity|]. intros H.
  assert (D : n / 10 ^ N.of_nat j < 10).
  { apply N.div_lt_upper_bound; [apply pow10_nz|]. rewrite Nat2N.inj_succ, N.pow_succ_r' in J1. lia. }
  assert (D0 : 1 <= n / 10 ^ N.of_nat j).
  { destruct J2 as [->|J2]; [change (10 ^ N.of_nat 0) with 1; rewrite N.div_1_r; lia|].
    apply N.div_le_lower_bound; [apply pow10_nz|lia]. }
  apply (f_equal b2n) in H. rewrite !b2n_n2b_small in H by (try reflexivity; lia). lia.
Qed.
Lemma numeral_0 s : numeral 0 s -> s = [n2b 48].
Proof. intros H. apply (numeral_unique 0 _ _ H). exists 0%nat. split; [reflexivity|split; [reflexivity|left; reflexivity]]. Qed.
(** appending full digits to a non-zero numeral *)
Lemma numeral_shift g a m k : numeral g a -> g <> 0 -> g = m / 10 ^ N.of_nat k -> numeral m (a ++ digits k m).
Proof.
  intros (j & -> & J1 & J2) Hg ->. exists (j + k)%nat. change (S (j + k)) with (S j + k)%nat. split; [|split].
  - symmetry. apply digits_app.
  - rewrite Nat2N.inj_add, N.pow_add_r.
    pose proof (N.div_mod m (10 ^ N.of_nat k) (pow10_nz _)). pose proof (N.mod_lt m (10 ^ N.of_nat k) (pow10_nz _)).
    set (p := 10 ^ N.of_nat k) in *. set (q := 10 ^ N.of_nat (S j)) in *. set (h := m / p) in *. clearbody h p q. nia.
  - right. rewrite Nat2N.inj_add, N.pow_add_r.
    pose proof (N.mul_div_le m (10 ^ N.of_nat k) (pow10_nz _)).
    assert (10 ^ N.of_nat j <= m / 10 ^ N.of_nat k) by (destruct J2 as [->|J2]; [change (10 ^ N.of_nat 0) with 1; clear - Hg; set (x := m / 10 ^ N.of_nat k) in *; clearbody x; lia|exact J2]).
    set (p := 10 ^ N.of_nat k) in *. set (q := 10 ^ N.of_nat j) in *. set (h := m / p) in *. clearbody h p q. nia.
Qed.

Lemma int_text intg i si : intg mod 9 <> 0 -> i < 10 ^ intg -> numerals (int_groups intg i) si ->
  (numeral i si <-> (intg / 9 = 0 \/ 0 < i / 10 ^ (9 * (intg / 9))) /\
     Forall full9 (group9 (N.to_nat (intg / 9)) (i mod 10 ^ (9 * (intg / 9))))).
Proof.
  intros Hx Hi Hs. set (k := intg / 9) in *.
  assert (Ei : int_groups intg i = i / 10 ^ (9 * k) :: group9 (N.to_nat k) (i mod 10 ^ (9 * k))).
  { unfold int_groups. fold k. apply N.eqb_neq in Hx. rewrite Hx. reflexivity. }
  rewrite Ei in Hs. destruct Hs as (a & b & Ha & Hb & ->).
  set (gs := group9 (N.to_nat k) (i mod 10 ^ (9 * k))) in *.
  assert (K9 : N.of_nat (9 * N.to_nat k) = 9 * k) by lia.
  assert (Hbound : Forall (fun g => g < 10 ^ 9) gs) by apply group9_bound.
  assert (Hlen : length gs = N.to_nat k) by apply group9_length.
  destruct (N.eq_dec k 0) as [K|K].
  { assert (G : gs = []) by (apply length_zero_iff_nil; rewrite Hlen, K; reflexivity).
    rewrite G in *. cbn in Hb. subst b. rewrite app_nil_r. rewrite K in Ha. change (10 ^ (9 * 0)) with 1 in Ha. rewrite N.div_1_r in Ha.
    split; [intros _; split; [left; exact K|constructor]|intros _; exact Ha]. }
  assert (Dg : flat_map (digits 9) gs = digits (9 * N.to_nat k) i).
  { unfold gs. rewrite group9_digits, <- K9. apply digits_mod. }
  split.
  - intros Hn. destruct (N.eq_dec (i / 10 ^ (9 * k)) 0) as [G|G].
    + exfalso. rewrite G in Ha. apply numeral_0 in Ha. subst a.
      destruct (N.eq_dec i 0) as [I|I].
      * rewrite I in Hn. apply numeral_0 in Hn. injection Hn as Hn.
        destruct gs as [|h gs]; [cbn in Hlen; lia|]. destruct Hb as (x & y & (j & -> & _) & _ & ->).
        apply (f_equal (@length byte)) in Hn. rewrite app_length, digits_length in Hn. discriminate.
      * destruct (numeral_first i _ Hn I) as (c & t & E & Hc). injection E as E _. auto.
    + pose proof (numeral_shift _ a i (9 * N.to_nat k) Ha G) as Hsh. rewrite K9 in Hsh. specialize (Hsh eq_refl).
      pose proof (numeral_unique _ _ _ Hn Hsh) as E. apply app_inv_head in E.
      split; [right; apply N.neq_0_lt_0; exact G|]. apply (numerals_length gs b Hbound Hb). rewrite E, digits_length, Hlen. reflexivity.
  - intros [[G|G] Hf]; [contradiction|]. pose proof (numerals_full9 gs b Hb Hf Hbound) as E. rewrite Dg in E. rewrite E.
    apply (numeral_shift (i / 10 ^ (9 * k))); [exact Ha|lia|rewrite K9; reflexivity].
Qed.

Lemma frac_text frac f sf : numerals (frac_groups frac f) sf ->
  (sf = digits (N.to_nat frac) f <->
    Forall full9 (group9 (N.to_nat (frac / 9)) (f / 10 ^ (frac mod 9))) /\
    (frac mod 9 <> 0 -> frac mod 9 = 1 \/ 10 ^ (frac mod 9 - 1) <= f mod 10 ^ (frac mod 9))).
Proof.
  intros Hs. unfold frac_groups in Hs. set (k := frac / 9) in *. set (m := frac mod 9) in *.
  assert (Efr : N.to_nat frac = (9 * N.to_nat k + N.to_nat m)%nat) by (unfold k, m; clear; lia).
  assert (Hm : m < 9) by (unfold m; clear; lia). clearbody k m.
  set (gs := group9 (N.to_nat k) (f / 10 ^ m)) in *.
  assert (Hbound : Forall (fun g => g < 10 ^ 9) gs) by apply group9_bound.
  assert (Hlen : length gs = N.to_nat k) by apply group9_length.
  assert (Dg : flat_map (digits 9) gs = digits (9 * N.to_nat k) (f / 10 ^ m)) by apply group9_digits.
  apply numerals_app in Hs. destruct Hs as (a & b & Ha & Hb & ->).
  destruct (numerals_length gs a Hbound Ha) as [L1 L2].
  rewrite Efr, digits_app, N2Nat.id.
  destruct (N.eqb_spec m 0) as [M|M].
  - cbn in Hb. subst b. rewrite M in *. change (N.to_nat 0) with O. cbn [digits]. rewrite !app_nil_r. split.
    + intros E. split; [|congruence]. apply L2. rewrite E, digits_length, Hlen. reflexivity.
    + intros [Hf _]. rewrite (numerals_full9 gs a Ha Hf Hbound). exact Dg.
  - destruct Hb as (b' & z & Hb & Hz & ->). cbn in Hz. subst z. rewrite app_nil_r.
    assert (Fm : f mod 10 ^ m < 10 ^ N.of_nat (S (N.to_nat (m - 1)))).
    { replace (N.of_nat (S (N.to_nat (m - 1)))) with m by lia. apply N.mod_lt, pow10_nz. }
    assert (Dm : digits (N.to_nat m) f = digits (N.to_nat m) (f mod 10 ^ m)).
    { pose proof (digits_mod (N.to_nat m) f) as D. rewrite N2Nat.id in D. symmetry. exact D. }
    destruct (numeral_length _ b' (N.to_nat (m - 1)) Hb Fm) as [M1 M2]. rewrite N2Nat.id in M2. split.
    + intros E. apply (f_equal (@length byte)) in E. rewrite !app_length, !digits_length in E. rewrite Hlen in *.
      split; [apply L2; lia|]. intros _. destruct M2 as [M2|M2]; [lia|left; lia|right; exact M2].
    + intros [Hf Hl]. rewrite (numerals_full9 gs a Ha Hf Hbound), Dg, Dm. f_equal.
      apply (numeral_unique (f mod 10 ^ m)); [exact Hb|]. exists (N.to_nat (m - 1)).
      split; [f_equal; lia|]. split; [exact Fm|]. rewrite N2Nat.id. destruct (Hl M) as [H1|H1]; [left; lia|right; exact H1].
Qed.

Lemma frac_0_groups f s : numerals (frac_groups 0 f) s -> s = [].
Proof. intros H. exact H. Qed.

Lemma text_right intg frac neg i f s : intg mod 9 <> 0 -> i < 10 ^ intg -> unpadded_text intg frac neg i f s ->
  (decimal_text frac neg i f s <-> no_padding intg frac i f).
Proof.
  intros Hx Hi (si & sf & Hsi & Hsf & ->).
  pose proof (int_text intg i si Hx Hi Hsi) as HI. pose proof (frac_text frac f sf Hsf) as HF.
  assert (E : decimal_text frac neg i f ((if neg then [n2b 45] else []) ++ si ++ (if frac =? 0 then [] else n2b 46 :: sf))
     <-> numeral i si /\ sf = digits (N.to_nat frac) f).
  { split.
    - intros (si' & Hn & E). apply app_inv_head in E. destruct (N.eqb_spec frac 0) as [F|F].
      + rewrite !app_nil_r in E. subst si'. split; [exact Hn|]. rewrite F in Hsf |- *. rewrite (frac_0_groups _ _ Hsf). reflexivity.
      + destruct (dot_split _ _ _ _ _ (numerals_no_dot _ _ Hsi) (numeral_no_dot _ _ Hn) E) as [-> ->]. auto.
    - intros [Hn ->]. exists si. auto. }
  rewrite E, HI, HF. unfold no_padding. tauto.
Qed.

Theorem decimal_print intg frac neg i f rest : intg mod 9 <> 0 -> i < 10 ^ intg ->
  exists d s, read_decimal intg frac (decimal_bytes intg frac neg i f ++ rest) = (Ok d, rest) /\
    fmt_decimal d = Ok s /\ unpadded_text intg frac neg i f s /\
    (decimal_text frac neg i f s <-> no_padding intg frac i f).
Proof.
  intros Hx Hi. destruct (fmt_decimal_spec intg frac neg i f Hx) as (s & E & U).
  eexists _, s. split; [apply read_decimal_spec; assumption|]. split; [exact E|]. split; [exact U|].
  apply text_right; assumption.
Qed.

(** ** Integer parts of a multiple of nine digits: the sign bit stays in the first group *)
Lemma read_fragment_flipped neg g rest : g < 2 ^ 31 ->
  read_fragment neg (wbe 4 (sign_flip 3 neg g) ++ rest) = (Ok (g + 2 ^ 31), rest).
Proof.
  intros H. destruct (sign_unflip 3 neg g H) as [Hb _]. change (2 ^ (8 * N.of_nat 4)) with (2 ^ 32) in Hb.
  unfold read_fragment. rstep. unfold pret. do 2 f_equal. unfold sign_flip. change (8 * N.of_nat 3 + 7) with 31. destruct neg.
  - change 0xffffffff with (N.ones 32). rewrite lxor_ones; consts; lia.
  - reflexivity.
Qed.
Lemma flip_first_app x y : x <> [] -> flip_first (x ++ y) = flip_first x ++ y.
Proof. destruct x; [contradiction|reflexivity]. Qed.

Lemma read_decimal_9 k neg i rest : i < 10 ^ (9 * N.of_nat (S k)) ->
  let g := i / 10 ^ (9 * N.of_nat k) in
  read_decimal (9 * N.of_nat (S k)) 0 (decimal_bytes (9 * N.of_nat (S k)) 0 neg i 0 ++ rest)
  = (Ok (mk_dec (9 * N.of_nat (S k)) 0 neg (g + 2 ^ 31 :: group9 k (i mod 10 ^ (9 * N.of_nat k)))), rest).
Proof.
  intros Hi g. set (intg := 9 * N.of_nat (S k)) in *.
  assert (Ek : intg / 9 = N.of_nat (S k)) by (unfold intg; clear; lia).
  assert (Em : intg mod 9 = 0) by (unfold intg; clear; lia).
  assert (Hg : g < 10 ^ 9).
  { apply N.div_lt_upper_bound; [apply pow10_nz|]. rewrite <- N.pow_add_r. replace (9 * N.of_nat k + 9) with intg by (unfold intg; clear; lia). exact Hi. }
  assert (Hg31 : g < 2 ^ 31) by (change (10 ^ 9) with 1000000000 in Hg; consts; clear - Hg; lia).
  set (gi := group9 k (i mod 10 ^ (9 * N.of_nat k))).
  assert (G : int_groups intg i = g :: gi).
  { unfold int_groups. rewrite Em, Ek. change (0 =? 0) with true. cbv iota. cbn [app]. rewrite Nat2N.id.
    replace (9 * N.of_nat (S k)) with (9 + 9 * N.of_nat k) by (clear; lia).
    assert (M : forall j n, n < 10 ^ (9 + 9 * N.of_nat j) -> group9 (S j) n = n / 10 ^ (9 * N.of_nat j) :: group9 j (n mod 10 ^ (9 * N.of_nat j))).
    { clear. induction j as [|j IH]; intros n Hn.
      - change (10 ^ (9 * N.of_nat 0)) with 1. change (10 ^ (9 + 9 * N.of_nat 0)) with (10 ^ 9) in Hn. cbn [group9 app]. rewrite N.div_1_r, N.mod_small by exact Hn. reflexivity.
      - change (group9 (S (S j)) n) with (group9 (S j) (n / 10 ^ 9) ++ [n mod 10 ^ 9]). rewrite IH.
        + cbn [app group9]. rewrite N.div_div by apply pow10_nz. rewrite <- N.pow_add_r. replace (9 * N.of_nat (S j)) with (9 + 9 * N.of_nat j) by (clear; lia).
          f_equal. rewrite N.pow_add_r. rewrite N.mod_mul_r by apply pow10_nz.
          rewrite (N.mul_comm (10 ^ 9)), N.div_add, N.mod_add by apply pow10_nz. rewrite (N.div_small (n mod 10 ^ 9)) by (apply N.mod_lt, pow10_nz).
          rewrite N.add_0_l, N.mod_mod by apply pow10_nz. reflexivity.
        + apply N.div_lt_upper_bound; [apply pow10_nz|]. rewrite <- N.pow_add_r. replace (9 + (9 + 9 * N.of_nat j)) with (9 + 9 * N.of_nat (S j)) by (clear; lia). exact Hn. }
    assert (Hi' : i < 10 ^ (9 + 9 * N.of_nat k)) by (replace (9 + 9 * N.of_nat k) with intg by (unfold intg; clear; lia); exact Hi).
    rewrite (N.mod_small i) by exact Hi'. rewrite M by exact Hi'. reflexivity. }
  assert (B : decimal_bytes intg 0 neg i 0 = wbe 4 (sign_flip 3 neg g) ++ flat_map (cpl 4 neg) gi).
  { unfold decimal_bytes. rewrite G. unfold int_widths. rewrite Em, Ek, Nat2N.id. change (0 =? 0) with true. cbv iota. cbn [app].
    change (frac_widths 0) with (@nil nat). change (frac_groups 0 0) with (@nil N). rewrite !app_nil_r.
    cbn [repeat]. change (wbes (4%nat :: repeat 4%nat k) (g :: gi)) with (wbe 4 g ++ wbes (repeat 4%nat k) gi).
    rewrite wbes_4 by apply group9_length. destruct (flip_first_wbe 3 neg g Hg31) as [F _]. rewrite <- cpl_flat.
    assert (Nn : wbe 4 g <> []) by (rewrite wbe_cons; discriminate).
    destruct neg; cbv iota in F |- *.
    - rewrite map_app, flip_first_app by (intros H; apply map_eq_nil in H; contradiction). rewrite F. reflexivity.
    - rewrite flip_first_app by exact Nn. rewrite F. reflexivity. }
  rewrite B, <- app_assoc. unfold read_decimal. change DIG_PER_DEC1 with 9. rewrite Ek.
  replace (intg - N.of_nat (S k) * 9) with 0 by (unfold intg; clear; lia).
  change (0 - 0 / 9 * 9) with 0. change (0 / 9) with 0.
  eapply eq_trans; [eapply pbind_ok; reflexivity|]. eapply eq_trans; [eapply pbind_ok; reflexivity|]. cbv beta.
  destruct (flip_first_wbe 3 neg g Hg31) as [_ (b & tl & Eb & Eneg)].
  rewrite Eb at 1. cbn [app]. rewrite Eneg, Bool.negb_involutive. change (0 <? 0) with false. cbv iota.
  eapply eq_trans; [eapply pbind_ok; reflexivity|].
  rewrite Nat2N.id. cbn [prepeat].
  eapply eq_trans.
  { eapply pbind_ok. eapply eq_trans; [eapply pbind_ok; apply read_fragment_flipped; exact Hg31|].
    eapply eq_trans; [eapply pbind_ok; apply read_fragments|reflexivity]. }
  change (N.to_nat 0) with O. cbn [prepeat].
  eapply eq_trans; [eapply pbind_ok; reflexivity|]. eapply eq_trans; [eapply pbind_ok; reflexivity|].
  unfold pret. cbn [app]. rewrite app_nil_r. reflexivity.
Qed.

Theorem decimal_9 k neg i rest : i < 10 ^ (9 * N.of_nat (S k)) ->
  exists d a b, read_decimal (9 * N.of_nat (S k)) 0 (decimal_bytes (9 * N.of_nat (S k)) 0 neg i 0 ++ rest) = (Ok d, rest) /\
    fmt_decimal d = Ok ((if neg then [n2b 45] else []) ++ a ++ b) /\
    numeral (i / 10 ^ (9 * N.of_nat k) + 2 ^ 31) a /\ numerals (group9 k (i mod 10 ^ (9 * N.of_nat k))) b.
Proof.
  intros Hi. pose proof (read_decimal_9 k neg i rest Hi) as R. cbv zeta in R.
  set (g := i / 10 ^ (9 * N.of_nat k)) in *. set (gi := group9 k _) in *.
  eexists _, (fmt_n (g + 2 ^ 31)), (flat_map fmt_n gi). split; [exact R|]. split; [|split; [apply fmt_n_numeral|apply numerals_map]].
  set (intg := 9 * N.of_nat (S k)) in *. set (d := mk_dec _ _ _ _).
  assert (Ek : intg / 9 = N.of_nat (S k)) by (unfold intg; clear; lia).
  assert (F : fmt_frags d 0 (S k) = Ok (flat_map fmt_n (g + 2 ^ 31 :: gi))).
  { replace (S k) with (length (g + 2 ^ 31 :: gi)) by (cbn [length]; f_equal; apply group9_length).
    apply (fmt_frags_spec d (g + 2 ^ 31 :: gi) [] []). cbn [app]. rewrite app_nil_r. reflexivity. }
  unfold fmt_decimal. change (d_intg d) with intg. change (d_frac d) with 0. change (d_neg d) with neg. change DIG_PER_DEC1 with 9. rewrite Ek.
  replace (intg - N.of_nat (S k) * 9) with 0 by (unfold intg; clear; lia). change (0 <? 0) with false. cbv iota. rewrite Nat2N.id, F.
  reflexivity.
Qed.

(** DECIMAL(1,1), (3,3), (5,5) ... (8,8): overflow *)
Lemma read_extra_unflipped k neg g rest : (k < 4)%nat -> g < 2 ^ (8 * N.of_nat k + 7) ->
  read_extra_fragment false (N.of_nat (S k)) neg (wbe (S k) (sign_flip k neg g) ++ rest) = (Ok (g + 2 ^ (8 * N.of_nat k + 7)), rest).
Proof.
  intros Hk Hg. destruct (sign_unflip k neg g Hg) as [Hb _].
  assert (P2 : 2 ^ (8 * N.of_nat (S k)) = 2 * 2 ^ (8 * N.of_nat k + 7)).
  { replace (8 * N.of_nat (S k)) with (N.succ (8 * N.of_nat k + 7)) by lia. apply N.pow_succ_r'. }
  assert (U : (if neg then N.lxor (sign_flip k neg g) (N.ones (8 * N.of_nat (S k))) else sign_flip k neg g) = g + 2 ^ (8 * N.of_nat k + 7)).
  { unfold sign_flip. destruct neg; [|reflexivity]. rewrite lxor_ones by (rewrite P2; lia). rewrite P2. lia. }
  set (s := sign_flip k neg g) in *.
  destruct k as [|[|[|[|k]]]]; [| | | |lia]; cbn [N.of_nat Pos.of_succ_nat Pos.succ] in *; unfold read_extra_fragment.
  - change (wbe 1 s) with (wle 1 s). rstep. unfold pret. do 2 f_equal. destruct neg; exact U.
  - rstep. unfold pret. do 2 f_equal. destruct neg; exact U.
  - rstep. unfold pret. do 2 f_equal. rewrite (land_ones' _ 24) by reflexivity.
    transitivity ((g + 2 ^ (8 * 2 + 7)) mod 2 ^ 24); [f_equal; destruct neg; exact U|]. apply N.mod_small. change (2 ^ 24) with (2 * 2 ^ (8 * 2 + 7)). clear - Hg. lia.
  - rstep. unfold pret. do 2 f_equal. destruct neg; exact U.
Qed.

Theorem decimal_only_fraction frac neg f rest : frac = 1 \/ frac = 3 \/ 5 <= frac <= 8 -> f < 10 ^ frac ->
  fst (read_decimal 0 frac (decimal_bytes 0 frac neg 0 f ++ rest)) = Panic PArith.
Proof.
  intros Hf Hv.
  assert (Hc : frac mod 9 = frac /\ frac / 9 = 0 /\ frac <> 0) by (clear - Hf; lia). destruct Hc as (Em & Ed & E0).
  assert (Hw : exists w, dig_bytes frac = S w /\ (w < 4)%nat /\ tget DIG_TO_BYTES frac = Ok (N.of_nat (S w)) /\ f < 2 ^ (8 * N.of_nat w + 7) /\
     tget POWERS_10 (9 - frac) = Ok (10 ^ (9 - frac)) /\ 2 ^ 32 <= (f + 2 ^ (8 * N.of_nat w + 7)) * 10 ^ (9 - frac)).
  { clear - Hf Hv. assert (C : frac = 1 \/ frac = 3 \/ frac = 5 \/ frac = 6 \/ frac = 7 \/ frac = 8) by lia.
    destruct C as [->|[->|[->|[->|[->| ->]]]]];
      eexists; (split; [reflexivity|]); (split; [lia|]); (split; [reflexivity|]);
      (split; [eapply N.lt_le_trans; [exact Hv|]; vm_compute; discriminate|]); (split; [reflexivity|]);
      (eapply N.le_trans; [|apply N.mul_le_mono_r, N.le_add_l]); vm_compute; discriminate. }
  destruct Hw as (w & W1 & W2 & W3 & W4 & W5 & W6).
  assert (B : decimal_bytes 0 frac neg 0 f = wbe (S w) (sign_flip w neg f)).
  { unfold decimal_bytes. change (int_widths 0) with (@nil nat). change (int_groups 0 0) with (@nil N). cbn [app].
    unfold frac_widths, frac_groups. rewrite Em, Ed. pose proof E0 as E0'. apply N.eqb_neq in E0'. rewrite E0'.
    change (N.to_nat 0) with O. cbn [repeat group9 app wbes]. rewrite W1, app_nil_r, N.mod_small by exact Hv.
    exact (proj1 (flip_first_wbe w neg f W4)). }
  rewrite B. unfold read_decimal. change DIG_PER_DEC1 with 9. rewrite Ed. change (0 / 9) with 0. change (0 - 0 * 9) with 0.
  replace (frac - 0 * 9) with frac by (clear; lia).
  destruct (flip_first_wbe w neg f W4) as [_ (b & tl & Eb & Eneg)].
  unfold pbind at 1 2. unfold plift at 1 2. change (tget DIG_TO_BYTES 0) with (Ok 0). cbv beta iota. rewrite W3. cbv beta iota.
  rewrite Eb at 1. cbn [app]. rewrite Eneg, Bool.negb_involutive. change (0 <? 0) with false. cbv iota.
  change (N.to_nat 0) with O. cbn [prepeat]. assert (H0 : (0 <? frac) = true) by (apply N.ltb_lt; clear - E0; lia). rewrite H0.
  unfold pbind at 1, pret at 1. unfold pbind at 1, pret at 1. unfold pbind at 1, pret at 1.
  unfold pbind at 1. erewrite pbind_ok; [|apply read_extra_unflipped; assumption].
  erewrite pbind_ok; [|unfold plift; rewrite W5; reflexivity].
  unfold pbind, plift, cmul. apply N.leb_le in W6. rewrite W6. reflexivity.
Qed.

Theorem decimal_padding intg frac neg i f rest : intg mod 9 <> 0 -> i < 10 ^ intg ->
  1 < frac < 9 -> f < 10 ^ (frac - 1) ->
  exists d s, read_decimal intg frac (decimal_bytes intg frac neg i f ++ rest) = (Ok d, rest) /\
    fmt_decimal d = Ok s /\ ~ decimal_text frac neg i f s.
Proof.
  intros Hx Hi Hf Hv. destruct (decimal_print intg frac neg i f rest Hx Hi) as (d & s & R & P & _ & I).
  exists d, s. split; [exact R|]. split; [exact P|]. intros T. apply I in T. destruct T as (_ & _ & _ & T).
  assert (E : frac mod 9 = frac) by (clear - Hf; lia). rewrite E in T.
  rewrite N.mod_small in T by (eapply N.lt_le_trans; [exact Hv|]; apply N.pow_le_mono_r; clear; lia).
  destruct T as [T|T]; [clear - Hf; lia|clear - Hf T; lia|]. apply N.lt_nge in Hv. contradiction.
Qed.
