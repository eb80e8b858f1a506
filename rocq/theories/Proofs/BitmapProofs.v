From Verif Require Import Model.Base Model.Bitmap Spec.BitmapSpec Proofs.BaseLemmas.
Open Scope N_scope.

Lemma land_bit x o : (N.land x (N.shiftl 1 o) =? 0) = negb (N.testbit x o).
Proof.
  rewrite N.shiftl_1_l.
  assert (E : N.land x (2 ^ o) = if N.testbit x o then 2 ^ o else 0).
  { apply N.bits_inj. intros i. rewrite N.land_spec.
    destruct (N.eq_dec i o) as [->|Hi].
    - rewrite N.pow2_bits_true. destruct (N.testbit x o); [symmetry; apply N.pow2_bits_true|].
      rewrite N.bits_0. reflexivity.
    - rewrite N.pow2_bits_false by congruence. rewrite andb_false_r.
      destruct (N.testbit x o); [rewrite N.pow2_bits_false by congruence|rewrite N.bits_0]; reflexivity. }
  rewrite E. destruct (N.testbit x o); [|reflexivity]. cbn [negb]. apply N.eqb_neq, N.pow_nonzero. discriminate.
Qed.

Lemma land_bit_eq x o : (N.land (N.shiftl 1 o) x =? N.shiftl 1 o) = N.testbit x o.
Proof.
  rewrite N.shiftl_1_l.
  assert (E : N.land (2 ^ o) x = if N.testbit x o then 2 ^ o else 0).
  { rewrite N.land_comm. apply N.bits_inj. intros i. rewrite N.land_spec.
    destruct (N.eq_dec i o) as [->|Hi].
    - rewrite N.pow2_bits_true. destruct (N.testbit x o); [symmetry; apply N.pow2_bits_true|].
      rewrite N.bits_0. reflexivity.
    - rewrite N.pow2_bits_false by congruence. rewrite andb_false_r.
      destruct (N.testbit x o); [rewrite N.pow2_bits_false by congruence|rewrite N.bits_0]; reflexivity. }
  rewrite E. destruct (N.testbit x o); [apply N.eqb_refl|]. apply N.eqb_neq.
  intros H. symmetry in H. revert H. apply N.pow_nonzero. discriminate.
Qed.

Lemma div8_lt i n : (i < 8 * n)%nat -> (i / 8 < n)%nat.
Proof. lia. Qed.

Lemma bget_ok bs i : (i < length bs)%nat -> bget bs i = Ok (nth i bs x00).
Proof.
  intros H. unfold bget. destruct (nth_error bs i) eqn:E.
  - f_equal. symmetry. apply nth_error_nth. exact E.
  - apply nth_error_None in E. lia.
Qed.
Lemma bget_panic bs i : (length bs <= i)%nat -> bget bs i = Panic PIndex.
Proof. intros H. unfold bget. apply nth_error_None in H. rewrite H. reflexivity. Qed.

Lemma bm_index_spec bs i : (i < 8 * length bs)%nat -> bm_index bs i = Ok (bit bs i).
Proof.
  intros H. unfold bm_index. rewrite bget_ok by (apply div8_lt; assumption). cbn [rbind].
  rewrite land_bit_eq. reflexivity.
Qed.
Lemma bm_index_oob bs i : (8 * length bs <= i)%nat -> bm_index bs i = Panic PIndex.
Proof. intros H. unfold bm_index. rewrite bget_panic by lia. reflexivity. Qed.

(** iteration *)
Lemma bm_next_some bs i : (i < 8 * length bs)%nat -> bm_next bs i = Ok (Some (bit bs i)).
Proof.
  intros H. unfold bm_next. destruct (Nat.eqb_spec (length bs * 8) i); [lia|].
  rewrite bget_ok by (apply div8_lt; assumption). cbn [rbind].
  rewrite land_bit, negb_involutive. reflexivity.
Qed.
Lemma bm_next_end bs : bm_next bs (8 * length bs) = Ok None.
Proof. unfold bm_next. destruct (Nat.eqb_spec (length bs * 8) (8 * length bs)); [reflexivity|lia]. Qed.

Lemma bm_iter_spec k : forall fuel bs i, (i + k = 8 * length bs)%nat -> (k < fuel)%nat ->
  bm_iter_from fuel bs i = Ok (map (bit bs) (seq i k)).
Proof.
  induction k; intros fuel bs i Hi Hf; (destruct fuel; [lia|]); cbn [bm_iter_from seq map].
  - replace i with (8 * length bs)%nat by lia. rewrite bm_next_end. reflexivity.
  - rewrite bm_next_some by lia. cbn [rbind]. rewrite IHk by lia. reflexivity.
Qed.

Lemma bm_to_iter_spec bs off : (off <= 8 * length bs)%nat -> bm_to_iter bs off = Ok (bits_from bs off).
Proof. intros H. unfold bm_to_iter, bits_from. apply bm_iter_spec; lia. Qed.

Lemma bm_to_iter_oob bs off : (8 * length bs < off)%nat -> bm_to_iter bs off = Panic PIndex.
Proof.
  intros H. unfold bm_to_iter. rewrite Nat.add_1_r. cbn [bm_iter_from]. unfold bm_next.
  destruct (Nat.eqb_spec (length bs * 8) off); [lia|]. rewrite bget_panic by lia. reflexivity.
Qed.

(** marking *)
Lemma bset_ok bs i v : (i < length bs)%nat -> bset bs i v = Ok (firstn i bs ++ v :: skipn (S i) bs).
Proof.
  revert i; induction bs as [|b bs IH]; intros i H; cbn [length] in H; [lia|].
  destruct i; [reflexivity|]. cbn [bset]. rewrite IH by lia. reflexivity.
Qed.

Lemma nth_upd bs i v j : (i < length bs)%nat ->
  nth j (firstn i bs ++ v :: skipn (S i) bs) x00 = if (j =? i)%nat then v else nth j bs x00.
Proof.
  revert i j; induction bs as [|b bs IH]; intros i j H; cbn [length] in H; [lia|].
  destruct i; [destruct j; reflexivity|]. destruct j; [reflexivity|].
  cbn [firstn skipn app nth Nat.eqb]. apply IH. lia.
Qed.

Lemma testbit_n2b x o : o < 8 -> N.testbit (b2n (n2b x)) o = N.testbit x o.
Proof. intros H. rewrite b2n_n2b. change 256 with (2 ^ 8). apply N.mod_pow2_bits_low. assumption. Qed.

Lemma bm_mark_spec bs i v : (i < 8 * length bs)%nat ->
  exists bs', bm_mark bs i v = Ok bs' /\ length bs' = length bs /\ bit bs' i = v /\
    (forall j, j <> i -> bit bs' j = bit bs j).
Proof.
  intros H. assert (Hd := div8_lt _ _ H).
  set (c := if v then N.lor (b2n (nth (i / 8) bs x00)) (N.shiftl 1 (N.of_nat (i mod 8)))
            else N.land (b2n (nth (i / 8) bs x00)) (N.lxor 0xff (N.shiftl 1 (N.of_nat (i mod 8))))).
  exists (firstn (i / 8) bs ++ n2b c :: skipn (S (i / 8)) bs).
  split; [|split; [|split]].
  - unfold bm_mark. rewrite bget_ok by assumption. cbn [rbind].
    subst c. destruct v; apply bset_ok; assumption.
  - rewrite app_length. cbn [length]. rewrite firstn_length, skipn_length. lia.
  - unfold bit. rewrite nth_upd by assumption. rewrite Nat.eqb_refl.
    fold (b2n (n2b c)). rewrite testbit_n2b by lia. subst c.
    destruct v.
    + rewrite N.lor_spec, N.shiftl_1_l, N.pow2_bits_true. apply orb_true_r.
    + rewrite N.land_spec, N.lxor_spec, N.shiftl_1_l, N.pow2_bits_true.
      replace (N.testbit 255 (N.of_nat (i mod 8))) with true; [apply andb_false_r|].
      symmetry. change 255 with (N.ones 8). apply N.ones_spec_low. lia.
  - intros j Hj. unfold bit. rewrite nth_upd by assumption.
    destruct (Nat.eqb_spec (j / 8) (i / 8)) as [E|E]; [|reflexivity].
    assert (Hm : (j mod 8 <> i mod 8)%nat) by lia.
    fold (b2n (n2b c)). rewrite testbit_n2b by lia. rewrite E. fold (b2n (nth (i / 8) bs x00)). subst c.
    destruct v.
    + rewrite N.lor_spec, N.shiftl_1_l, N.pow2_bits_false by lia. apply orb_false_r.
    + rewrite N.land_spec, N.lxor_spec, N.shiftl_1_l, N.pow2_bits_false by lia.
      replace (N.testbit 255 (N.of_nat (j mod 8))) with true; [rewrite andb_true_r; reflexivity|].
      symmetry. change 255 with (N.ones 8). apply N.ones_spec_low. lia.
Qed.

Lemma bm_mark_oob bs i v : (8 * length bs <= i)%nat -> bm_mark bs i v = Panic PIndex.
Proof. intros H. unfold bm_mark. rewrite bget_panic by lia. reflexivity. Qed.

(** construction *)
Lemma or_last_spec bm bit0 : bm <> [] ->
  or_last bm bit0 = firstn (length bm - 1) bm ++ [n2b (N.lor (b2n (nth (length bm - 1) bm x00)) bit0)].
Proof.
  induction bm as [|b bm IH]; [congruence|]. intros _.
  destruct bm as [|b' bm]; [reflexivity|].
  change (or_last (b :: b' :: bm) bit0) with (b :: or_last (b' :: bm) bit0).
  rewrite IH by discriminate. cbn [length].
  replace (S (S (length bm)) - 1)%nat with (S (S (length bm) - 1)) by lia. reflexivity.
Qed.

Lemma or_last_upd bm b : bm <> [] ->
  or_last bm b = firstn (length bm - 1) bm ++ n2b (N.lor (b2n (nth (length bm - 1) bm x00)) b) :: skipn (S (length bm - 1)) bm.
Proof.
  intros H. rewrite or_last_spec by assumption. f_equal. f_equal.
  destruct bm; [congruence|]. cbn [length]. rewrite skipn_all2; [reflexivity|cbn [length]; lia].
Qed.

Lemma or_last_length bm b : length (or_last bm b) = length bm.
Proof.
  induction bm as [|x bm IH]; [reflexivity|]. destruct bm as [|y bm]; [reflexivity|].
  change (or_last (x :: y :: bm) b) with (x :: or_last (y :: bm) b). cbn [length] in *. rewrite IH. reflexivity.
Qed.

Lemma bit_app_zero bm j : bit (bm ++ [x00]) j = bit bm j.
Proof.
  unfold bit. destruct (Nat.ltb_spec (j / 8) (length bm)).
  - rewrite app_nth1 by assumption. reflexivity.
  - rewrite app_nth2 by assumption. rewrite (nth_overflow bm) by assumption.
    destruct (j / 8 - length bm)%nat as [|[|]]; reflexivity.
Qed.

Lemma bit_or_last bm off j : length bm = S (off / 8) ->
  bit (or_last bm (N.shiftl 1 (N.of_nat (off mod 8)))) j = if (j =? off)%nat then true else bit bm j.
Proof.
  intros L. assert (bm <> []) by (intros ->; discriminate).
  rewrite or_last_upd by assumption.
  replace (length bm - 1)%nat with (off / 8)%nat by lia.
  unfold bit. rewrite nth_upd by lia.
  destruct (Nat.eqb_spec (j / 8) (off / 8)) as [E|E].
  - fold (b2n (n2b (N.lor (b2n (nth (off / 8) bm x00)) (N.shiftl 1 (N.of_nat (off mod 8)))))).
    rewrite testbit_n2b by lia. rewrite N.lor_spec, N.shiftl_1_l.
    destruct (Nat.eqb_spec j off) as [->|Hj].
    + rewrite N.pow2_bits_true. apply orb_true_r.
    + rewrite N.pow2_bits_false by lia. rewrite orb_false_r, E. reflexivity.
  - destruct (Nat.eqb_spec j off) as [->|Hj]; [congruence|reflexivity].
Qed.

Lemma bm_from_loop_spec bools : forall off bm,
  (length bm = off / 8 /\ off mod 8 = 0 \/ length bm = S (off / 8))%nat ->
  (forall j, (off <= j)%nat -> bit bm j = false) ->
  length (bm_from_loop bools off bm) = Nat.max (length bm) ((off + length bools + 7) / 8) /\
  forall j, bit (bm_from_loop bools off bm) j =
            if (j <? off)%nat then bit bm j else nth (j - off) bools false.
Proof.
  induction bools as [|b bools IH]; intros off bm L Z.
  - cbn [bm_from_loop length]. split; [rewrite Nat.add_0_r; lia|].
    intros j. destruct (Nat.ltb_spec j off); [reflexivity|]. rewrite Z by assumption.
    destruct (j - off)%nat; reflexivity.
  - cbn [bm_from_loop].
    set (bm1 := if (off / 8 =? length bm)%nat then bm ++ [x00] else bm).
    set (bm2 := if b then or_last bm1 (N.shiftl 1 (N.of_nat (off mod 8))) else bm1).
    assert (L1 : length bm1 = S (off / 8)).
    { subst bm1. destruct (Nat.eqb_spec (off / 8) (length bm)); [rewrite app_length; cbn [length]; lia|lia]. }
    assert (B1 : forall j, bit bm1 j = bit bm j).
    { intros j. subst bm1. destruct (off / 8 =? length bm)%nat; [apply bit_app_zero|reflexivity]. }
    assert (L2 : length bm2 = S (off / 8)).
    { subst bm2. destruct b; [rewrite or_last_length|]; assumption. }
    assert (B2 : forall j, bit bm2 j = if (j =? off)%nat then b else bit bm j).
    { intros j. subst bm2. destruct b.
      - rewrite bit_or_last by assumption. rewrite B1. reflexivity.
      - rewrite B1. destruct (Nat.eqb_spec j off) as [->|]; [apply Z; lia|reflexivity]. }
    destruct (IH (S off) bm2) as [H1 H2].
    + lia.
    + intros j Hj. rewrite B2. destruct (Nat.eqb_spec j off); [lia|]. apply Z. lia.
    + split.
      * rewrite H1, L2. cbn [length]. clear - L. lia.
      * intros j. rewrite H2, B2. destruct (Nat.ltb_spec j (S off)), (Nat.ltb_spec j off), (Nat.eqb_spec j off);
        try lia; try reflexivity.
        -- subst j. rewrite Nat.sub_diag. reflexivity.
        -- replace (j - off)%nat with (S (j - S off)) by lia. reflexivity.
Qed.

Lemma bit_zeros k j : bit (repeat x00 k) j = false.
Proof.
  unfold bit. replace (nth (j / 8) (repeat x00 k) x00) with x00; [reflexivity|].
  generalize (j / 8)%nat. induction k; intros [|m]; cbn [repeat nth]; auto.
Qed.

Lemma bm_from_iter_spec bools off :
  length (bm_from_iter bools off) = Nat.max (off / 8 + 1) ((off + length bools + 7) / 8) /\
  forall j, bit (bm_from_iter bools off) j = if (j <? off)%nat then false else nth (j - off) bools false.
Proof.
  unfold bm_from_iter.
  destruct (bm_from_loop_spec bools off (repeat x00 (off / 8 + 1))) as [H1 H2].
  - rewrite repeat_length. lia.
  - intros j _. apply bit_zeros.
  - rewrite repeat_length in H1. split; [exact H1|].
    intros j. rewrite H2, bit_zeros. reflexivity.
Qed.

Lemma map_nth_seq {A} (d : A) (l : list A) : forall k, (length l <= k)%nat ->
  map (fun i => nth i l d) (seq 0 k) = l ++ repeat d (k - length l).
Proof.
  induction l as [|a l IH]; intros k H.
  - cbn [app length]. rewrite Nat.sub_0_r. clear H.
    assert (forall s, map (fun i => nth i (@nil A) d) (seq s k) = repeat d k) as G; [|apply G].
    induction k; intros s; [reflexivity|]. cbn [seq map repeat]. rewrite IHk.
    destruct s; reflexivity.
  - cbn [length] in *. destruct k; [lia|]. cbn [seq map nth app]. f_equal.
    rewrite <- seq_shift, map_map. cbn [nth]. apply IH. lia.
Qed.

Lemma bm_round_trip bools off : exists k,
  bm_to_iter (bm_from_iter bools off) off = Ok (bools ++ repeat false k) /\ (k < 8 \/ bools = [] /\ k <= 8)%nat.
Proof.
  destruct (bm_from_iter_spec bools off) as [L B].
  assert (Hl : (off + length bools <= 8 * length (bm_from_iter bools off))%nat) by (rewrite L; lia).
  exists (8 * length (bm_from_iter bools off) - off - length bools)%nat. split.
  - rewrite bm_to_iter_spec by lia. f_equal. unfold bits_from.
    rewrite <- (map_nth_seq false bools) by lia.
    assert (S : forall n, seq off n = map (fun i => (off + i)%nat) (seq 0 n)).
    { intros n. clear. induction off; [rewrite map_id; reflexivity|].
      rewrite <- seq_shift, IHoff, map_map. reflexivity. }
    rewrite S, map_map. apply map_ext. intros i. rewrite B.
    destruct (Nat.ltb_spec (off + i) off); [lia|]. f_equal. lia.
  - rewrite L. destruct bools; cbn [length]; [right; split; [reflexivity|]; lia|left; lia].
Qed.
