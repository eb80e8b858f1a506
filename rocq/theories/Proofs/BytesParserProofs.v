(** * Lemmas about the fixed width readers and writers *)
From Verif Require Import Model.Base Model.BytesParser Spec.Nums Proofs.BaseLemmas.
Open Scope N_scope.

(** ** Positional values *)
Lemma get_le_val bs : get_le bs = le_val bs.
Proof.
  induction bs as [|b bs IH]; [reflexivity|].
  unfold get_le in *. cbn [fold_right le_val]. rewrite IH, N.shiftl_mul_pow2.
  unfold b2n. change (2 ^ 8) with 256. lia.
Qed.

Lemma le_val_app a b : le_val (a ++ b) = le_val a + 256 ^ N.of_nat (length a) * le_val b.
Proof.
  induction a as [|x a IH]; [cbn [app le_val length]; change (N.of_nat 0) with 0; rewrite N.pow_0_r; lia|].
  cbn [app le_val length]. rewrite IH, Nat2N.inj_succ, N.pow_succ_r'. lia.
Qed.

Lemma get_be_acc bs acc :
  fold_left (fun acc b => N.shiftl acc 8 + b2n b) bs acc = acc * 256 ^ N.of_nat (length bs) + be_val bs.
Proof.
  revert acc. induction bs as [|b bs IH]; intros acc.
  - cbn [fold_left length]. unfold be_val. cbn [rev le_val]. change (N.of_nat 0) with 0.
    rewrite N.pow_0_r. lia.
  - cbn [fold_left]. rewrite IH, N.shiftl_mul_pow2. unfold be_val. cbn [rev length].
    rewrite le_val_app, rev_length, Nat2N.inj_succ, N.pow_succ_r'. cbn [le_val].
    unfold b2n. change (2 ^ 8) with 256. lia.
Qed.

Lemma get_be_val bs : get_be bs = be_val bs.
Proof. unfold get_be. rewrite get_be_acc. lia. Qed.

Lemma le_val_bound bs : le_val bs < 256 ^ N.of_nat (length bs).
Proof.
  induction bs as [|b bs IH]; [reflexivity|].
  cbn [le_val length]. rewrite Nat2N.inj_succ, N.pow_succ_r'.
  pose proof (b2n_lt b) as H. unfold b2n in H. lia.
Qed.

Lemma be_val_bound bs : be_val bs < 256 ^ N.of_nat (length bs).
Proof. unfold be_val. rewrite <- rev_length. apply le_val_bound. Qed.

Lemma to_le_bytes_length k n : length (to_le_bytes k n) = k.
Proof. revert n; induction k; intros n; cbn [to_le_bytes length]; [reflexivity|]. rewrite IHk. reflexivity. Qed.

Lemma le_val_to_le_bytes k n : le_val (to_le_bytes k n) = n mod 256 ^ N.of_nat k.
Proof.
  revert n; induction k; intros n.
  - cbn [to_le_bytes le_val]. change (N.of_nat 0) with 0. rewrite N.pow_0_r, N.mod_1_r. reflexivity.
  - cbn [to_le_bytes le_val]. rewrite IHk, Nat2N.inj_succ, N.pow_succ_r', N.shiftr_div_pow2.
    change (2 ^ 8) with 256. fold (b2n (n2b n)). rewrite b2n_n2b.
    rewrite (N.mod_mul_r n 256 (256 ^ N.of_nat k)); [reflexivity|discriminate|].
    apply N.pow_nonzero. discriminate.
Qed.

Lemma to_le_bytes_le_val bs : to_le_bytes (length bs) (le_val bs) = bs.
Proof.
  induction bs as [|b bs IH]; [reflexivity|].
  cbn [length to_le_bytes le_val]. rewrite N.shiftr_div_pow2. change (2 ^ 8) with 256.
  pose proof (b2n_lt b) as H. unfold b2n in H.
  replace ((Byte.to_N b + 256 * le_val bs) / 256) with (le_val bs) by lia.
  rewrite IH. f_equal. apply b2n_inj. rewrite b2n_n2b. unfold b2n. lia.
Qed.

Lemma le_val_inj a b : length a = length b -> le_val a = le_val b -> a = b.
Proof. intros H1 H2. rewrite <- (to_le_bytes_le_val a), <- (to_le_bytes_le_val b), H1, H2. reflexivity. Qed.

Lemma firstn_to_le_bytes j k n : (j <= k)%nat -> firstn j (to_le_bytes k n) = to_le_bytes j n.
Proof.
  revert k n; induction j; intros k n H; [reflexivity|].
  destruct k; [lia|]. cbn [to_le_bytes firstn]. rewrite IHj by lia. reflexivity.
Qed.

(** ** take *)
Lemma take_app k a rest : length a = k -> take k (a ++ rest) = (Ok a, rest).
Proof.
  intros <-. unfold take. rewrite app_length.
  destruct (Nat.ltb_spec (length a + length rest) (length a)); [lia|].
  rewrite firstn_app, skipn_app, Nat.sub_diag, firstn_all, skipn_all, app_nil_r. reflexivity.
Qed.
Lemma take_short k bs : (length bs < k)%nat ->
  take k bs = (Err (EIncomplete (Some (N.of_nat (k - length bs)))), bs).
Proof. intros H. unfold take. destruct (Nat.ltb_spec (length bs) k); [reflexivity|lia]. Qed.
Lemma take_inv k bs a rest : take k bs = (Ok a, rest) -> bs = a ++ rest /\ length a = k.
Proof.
  unfold take. destruct (Nat.ltb_spec (length bs) k); [discriminate|].
  intros E; inversion E; subst. rewrite firstn_skipn. split; [reflexivity|].
  rewrite firstn_length. lia.
Qed.
Lemma good_take k : good (take k).
Proof.
  repeat split.
  - intros bs. unfold take. destruct (length bs <? k)%nat; [right|left]; eexists; reflexivity.
  - intros bs. unfold take. destruct (length bs <? k)%nat; [exists []; reflexivity|].
    exists (firstn k bs). symmetry; apply firstn_skipn.
  - intros bs ext a rest H. apply take_inv in H. destruct H as [-> H].
    rewrite <- app_assoc. apply take_app. assumption.
Qed.

Lemma read_u8_cons b rest : read_u8 (b :: rest) = (Ok (b2n b), rest).
Proof. reflexivity. Qed.
Lemma read_byte_cons b rest : read_byte (b :: rest) = (Ok b, rest).
Proof. reflexivity. Qed.
Lemma good_read_u8 : good read_u8.
Proof.
  repeat split.
  - intros [|b bs]; [right|left]; eexists; reflexivity.
  - intros [|b bs]; [exists []|exists [b]]; reflexivity.
  - intros [|b bs] ext a rest H; [discriminate|]. inversion H; subst. reflexivity.
Qed.
Lemma good_read_byte : good read_byte.
Proof.
  repeat split.
  - intros [|b bs]; [right|left]; eexists; reflexivity.
  - intros [|b bs]; [exists []|exists [b]]; reflexivity.
  - intros [|b bs] ext a rest H; [discriminate|]. inversion H; subst. reflexivity.
Qed.

Lemma read_len_app n a rest : blen a = n -> read_len n (a ++ rest) = (Ok a, rest).
Proof.
  intros <-. unfold read_len. rewrite blen_app.
  destruct (N.ltb_spec (blen a + blen rest) (blen a)); [lia|].
  unfold blen. rewrite Nat2N.id, firstn_app, skipn_app, Nat.sub_diag, firstn_all, skipn_all, app_nil_r.
  reflexivity.
Qed.
Lemma read_len_all n a : blen a = n -> read_len n a = (Ok a, []).
Proof. intros H. rewrite <- (app_nil_r a) at 1. apply read_len_app. assumption. Qed.
Lemma read_len_inv n bs a rest : read_len n bs = (Ok a, rest) -> bs = a ++ rest /\ blen a = n.
Proof.
  unfold read_len. destruct (N.ltb_spec (blen bs) n); [discriminate|].
  intros E; inversion E; subst. rewrite firstn_skipn. split; [reflexivity|].
  unfold blen in *. rewrite firstn_length. lia.
Qed.
Lemma read_len_short n bs : blen bs < n -> read_len n bs = (Err (EIncomplete (Some (n - blen bs))), bs).
Proof. intros H. unfold read_len. destruct (N.ltb_spec (blen bs) n); [reflexivity|lia]. Qed.
Lemma good_read_len n : good (read_len n).
Proof.
  repeat split.
  - intros bs. unfold read_len. destruct (blen bs <? n); [right|left]; eexists; reflexivity.
  - intros bs. unfold read_len. destruct (blen bs <? n); [exists []; reflexivity|].
    exists (firstn (N.to_nat n) bs). symmetry; apply firstn_skipn.
  - intros bs ext a rest H. apply read_len_inv in H. destruct H as [-> H].
    rewrite <- app_assoc. apply read_len_app. assumption.
Qed.

Lemma position_app b a rest : ~ In b a -> position b (a ++ b :: rest) = Some (length a).
Proof.
  induction a as [|x a IH]; intros H; cbn [app position length].
  - rewrite byte_eqb_refl. reflexivity.
  - destruct (byte_eqb_spec x b) as [->|n]; [exfalso; apply H; left; reflexivity|].
    rewrite IH; [reflexivity|]. intros Hin; apply H; right; assumption.
Qed.
Lemma position_none b a : position b a = None <-> ~ In b a.
Proof.
  induction a as [|x a IH]; cbn [position In]; [tauto|].
  destruct (byte_eqb_spec x b) as [->|n]; [split; [discriminate|tauto]|].
  destruct (position b a); cbn [option_map].
  - split; [discriminate|]. intros H. exfalso.
    assert (~ In b a) as H' by tauto. apply IH in H'. discriminate.
  - split; [|reflexivity]. intros _ [->|H]; [congruence|]. apply IH in H; auto.
Qed.
Lemma position_some b bs pos : position b bs = Some pos ->
  exists a rest, bs = a ++ b :: rest /\ length a = pos /\ ~ In b a.
Proof.
  revert pos; induction bs as [|x bs IH]; intros pos; cbn [position]; [discriminate|].
  destruct (byte_eqb_spec x b) as [->|n].
  - intros H; inversion H; subst. exists [], bs. auto.
  - destruct (position b bs) as [q|]; cbn [option_map]; [|discriminate].
    intros H; inversion H; subst. destruct (IH q eq_refl) as (a & rest & -> & <- & Hn).
    exists (x :: a), rest. repeat split; auto. cbn. intros [->|]; tauto.
Qed.
Lemma read_until_excl b a rest : ~ In b a -> read_until b false (a ++ b :: rest) = (Ok a, rest).
Proof.
  intros H. unfold read_until. rewrite position_app by assumption.
  replace (S (length a) - 1)%nat with (length a) by lia.
  rewrite firstn_app, skipn_app, Nat.sub_diag, firstn_all, skipn_all, app_nil_r. reflexivity.
Qed.
Lemma read_until_incl b a rest : ~ In b a -> read_until b true (a ++ b :: rest) = (Ok (a ++ [b]), rest).
Proof.
  intros H. unfold read_until. rewrite position_app by assumption.
  replace (S (length a)) with (length (a ++ [b])) by (rewrite app_length; cbn; lia).
  replace (a ++ b :: rest) with ((a ++ [b]) ++ rest) by (rewrite <- app_assoc; reflexivity).
  rewrite firstn_app, skipn_app, Nat.sub_diag, firstn_all, skipn_all, app_nil_r. reflexivity.
Qed.
Lemma read_until_none b inc bs : ~ In b bs -> read_until b inc bs = (Err (EIncomplete None), bs).
Proof. intros H. apply position_none in H. unfold read_until. rewrite H. reflexivity. Qed.
Lemma read_until_inv b inc bs s rest : read_until b inc bs = (Ok s, rest) ->
  exists a, ~ In b a /\ bs = a ++ b :: rest /\ s = if inc then a ++ [b] else a.
Proof.
  destruct (position b bs) as [pos|] eqn:E.
  - destruct (position_some _ _ _ E) as (a & r & -> & <- & Hn).
    destruct inc; [rewrite read_until_incl by assumption|rewrite read_until_excl by assumption];
    intros H; injection H as <- <-; exists a; auto.
  - unfold read_until. rewrite E. discriminate.
Qed.
Lemma good_read_until b inc : good (read_until b inc).
Proof.
  repeat split.
  - intros bs. unfold read_until. destruct (position b bs); [left|right; eexists; reflexivity].
    destruct inc; eexists; reflexivity.
  - intros bs. destruct (read_until b inc bs) as [[s|e|w|] rest] eqn:E; cbn [snd].
    + apply read_until_inv in E. destruct E as (a & _ & -> & _). exists (a ++ [b]).
      rewrite <- app_assoc. reflexivity.
    + exists []. unfold read_until in E. destruct (position b bs); [destruct inc; discriminate|].
      inversion E; reflexivity.
    + exists []. unfold read_until in E. destruct (position b bs); [destruct inc; discriminate|].
      inversion E; reflexivity.
    + exists []. unfold read_until in E. destruct (position b bs); [destruct inc; discriminate|].
      inversion E; reflexivity.
  - intros bs ext s rest E. apply read_until_inv in E. destruct E as (a & Hn & -> & ->).
    rewrite <- app_assoc. cbn [app]. destruct inc; [apply read_until_incl|apply read_until_excl]; assumption.
Qed.

Lemma no_panic_rest : no_panic read_rest.
Proof. intros bs; left; eexists; reflexivity. Qed.
Lemma suffix_rest : suffix_p read_rest.
Proof. intros bs; exists bs. rewrite app_nil_r. reflexivity. Qed.
#[export] Hint Resolve no_panic_rest suffix_rest : parse.

(** ** Value of each reader on exactly the bytes it needs *)

Lemma list_len3 {A} (l : list A) : length l = 3%nat -> exists a b c, l = [a; b; c].
Proof. destruct l as [|a [|b [|c [|]]]]; try discriminate. eauto. Qed.
Lemma list_len6 {A} (l : list A) : length l = 6%nat -> exists a b c d e f, l = [a; b; c; d; e; f].
Proof. destruct l as [|a [|b [|c [|d [|e [|f [|]]]]]]]; try discriminate. eauto 7. Qed.

Section Readers.
  Variable rest : bytes.

  Lemma read_le_u16_spec a : length a = 2%nat -> read_le_u16 (a ++ rest) = (Ok (le_val a), rest).
  Proof. intros H. rewrite <- get_le_val. apply pmap_ok, take_app; assumption. Qed.
  Lemma read_be_u16_spec a : length a = 2%nat -> read_be_u16 (a ++ rest) = (Ok (be_val a), rest).
  Proof. intros H. rewrite <- get_be_val. apply pmap_ok, take_app; assumption. Qed.
  Lemma read_le_u24_spec a : length a = 3%nat -> read_le_u24 (a ++ rest) = (Ok (le_val a), rest).
  Proof.
    intros H. unfold read_le_u24. rewrite (pmap_ok _ _ _ _ _ (take_app _ _ rest H)).
    destruct (list_len3 _ H) as (b0 & b1 & b2 & ->). cbn [le_val]. rewrite !N.shiftl_mul_pow2.
    change (2 ^ 8) with 256. change (2 ^ 16) with 65536. unfold b2n. do 2 f_equal. lia.
  Qed.
  Lemma read_be_u24_spec a : length a = 3%nat -> read_be_u24 (a ++ rest) = (Ok (be_val a), rest).
  Proof.
    intros H. unfold read_be_u24. rewrite (pmap_ok _ _ _ _ _ (take_app _ _ rest H)).
    destruct (list_len3 _ H) as (b0 & b1 & b2 & ->). unfold be_val. cbn [rev app le_val].
    rewrite !N.shiftl_mul_pow2. change (2 ^ 8) with 256. change (2 ^ 16) with 65536.
    unfold b2n. do 2 f_equal. lia.
  Qed.
  Lemma read_le_u32_spec a : length a = 4%nat -> read_le_u32 (a ++ rest) = (Ok (le_val a), rest).
  Proof. intros H. rewrite <- get_le_val. apply pmap_ok, take_app; assumption. Qed.
  Lemma read_be_u32_spec a : length a = 4%nat -> read_be_u32 (a ++ rest) = (Ok (be_val a), rest).
  Proof. intros H. rewrite <- get_be_val. apply pmap_ok, take_app; assumption. Qed.
  Lemma read_le_u48_spec a : length a = 6%nat -> read_le_u48 (a ++ rest) = (Ok (le_val a), rest).
  Proof.
    intros H. unfold read_le_u48. rewrite (pmap_ok _ _ _ _ _ (take_app _ _ rest H)).
    destruct (list_len6 _ H) as (b0 & b1 & b2 & b3 & b4 & b5 & ->). cbn [le_val].
    rewrite !N.shiftl_mul_pow2.
    change (2 ^ 8) with 256. change (2 ^ 16) with 65536. change (2 ^ 24) with 16777216.
    change (2 ^ 32) with 4294967296. change (2 ^ 40) with 1099511627776.
    unfold b2n. do 2 f_equal. lia.
  Qed.
  Lemma read_le_u64_spec a : length a = 8%nat -> read_le_u64 (a ++ rest) = (Ok (le_val a), rest).
  Proof. intros H. rewrite <- get_le_val. apply pmap_ok, take_app; assumption. Qed.
  Lemma read_le_u128_spec a : length a = 16%nat -> read_le_u128 (a ++ rest) = (Ok (le_val a), rest).
  Proof. intros H. rewrite <- get_le_val. apply pmap_ok, take_app; assumption. Qed.
  Lemma read_le_f32_spec a : length a = 4%nat -> read_le_f32 (a ++ rest) = (Ok (le_val a), rest).
  Proof. intros H. rewrite <- get_le_val. apply pmap_ok, take_app; assumption. Qed.
  Lemma read_le_f64_spec a : length a = 8%nat -> read_le_f64 (a ++ rest) = (Ok (le_val a), rest).
  Proof.
    intros H. unfold read_le_f64. rewrite app_length.
    destruct (Nat.ltb_spec (length a + length rest) 8); [lia|].
    rewrite <- get_le_val. apply pmap_ok, take_app; assumption.
  Qed.
  Lemma read_u8_spec a : length a = 1%nat -> read_u8 (a ++ rest) = (Ok (le_val a), rest).
  Proof. destruct a as [|b [|]]; try discriminate. intros _. cbn [le_val app]. rewrite read_u8_cons.
    unfold b2n. do 2 f_equal. lia. Qed.
  Lemma read_be_u40_spec a : length a = 5%nat -> read_be_u40 (a ++ rest) = (Ok (be_val a), rest).
  Proof.
    intros H. unfold read_be_u40. rewrite app_length.
    destruct (Nat.ltb_spec (length a + length rest) 5); [lia|].
    assert (E : a = firstn 4 a ++ skipn 4 a) by (symmetry; apply firstn_skipn).
    assert (H4 : length (firstn 4 a) = 4%nat) by (rewrite firstn_length; lia).
    assert (H1 : length (skipn 4 a) = 1%nat) by (rewrite skipn_length; lia).
    destruct (skipn 4 a) as [|c [|]]; try discriminate.
    rewrite E at 1. rewrite <- app_assoc.
    unfold read_be_u32. rewrite pbind_pmap.
    rewrite (pbind_ok _ _ _ _ _ (take_app 4 _ _ H4)). cbn [app].
    rewrite (pbind_ok _ _ _ _ _ (read_u8_cons _ _)). rewrite get_be_val.
    unfold pret. do 2 f_equal. rewrite E at 2. unfold be_val.
    rewrite rev_app_distr. cbn [rev app le_val]. rewrite N.shiftl_mul_pow2. unfold b2n.
    change (2 ^ 8) with 256. lia.
  Qed.
End Readers.

(** ** Signed casts *)
Lemma to_signed_twos k n : 1 <= k -> n < 2 ^ k -> twos (Z.of_N k) n (to_signed k n).
Proof.
  intros Hk Hn. unfold to_signed, twos.
  assert (E : 2 ^ k = 2 * 2 ^ (k - 1)).
  { rewrite <- N.pow_succ_r'. f_equal; lia. }
  assert (EZ : (2 ^ Z.of_N k = 2 * 2 ^ (Z.of_N k - 1))%Z).
  { rewrite <- Z.pow_succ_r by lia. f_equal; lia. }
  assert (EN : Z.of_N (2 ^ (k - 1)) = (2 ^ (Z.of_N k - 1))%Z).
  { rewrite N2Z.inj_pow. f_equal; lia. }
  assert (0 < 2 ^ (Z.of_N k - 1))%Z by (apply Z.pow_pos_nonneg; lia).
  destruct (N.ltb_spec n (2 ^ (k - 1))).
  - split; [lia|reflexivity].
  - split; [lia|]. rewrite <- (Z.mod_add (Z.of_N n) (-1) (2 ^ Z.of_N k)) by lia. f_equal; lia.
Qed.

Lemma twos_unique bits n z1 z2 : (1 <= bits)%Z -> twos bits n z1 -> twos bits n z2 -> z1 = z2.
Proof.
  unfold twos. intros Hb (R1 & M1) (R2 & M2).
  assert (E : (2 ^ bits = 2 * 2 ^ (bits - 1))%Z).
  { rewrite <- Z.pow_succ_r by lia. f_equal; lia. }
  assert (0 < 2 ^ (bits - 1))%Z by (apply Z.pow_pos_nonneg; lia).
  rewrite <- M2 in M1.
  assert (Hd : ((z1 - z2) mod 2 ^ bits = 0)%Z).
  { rewrite Zminus_mod, M1, Z.sub_diag. apply Z.mod_0_l. lia. }
  apply Z.mod_divide in Hd; [|lia]. destruct Hd as [q Hq].
  assert (q = 0)%Z by nia. subst q. lia.
Qed.

Lemma to_signed_unsigned k z : 1 <= k ->
  (- 2 ^ (Z.of_N k - 1) <= z < 2 ^ (Z.of_N k - 1))%Z -> to_signed k (to_unsigned k z) = z.
Proof.
  intros Hk Hz.
  assert (E : (2 ^ Z.of_N k = 2 * 2 ^ (Z.of_N k - 1))%Z).
  { rewrite <- Z.pow_succ_r by lia. f_equal; lia. }
  assert (0 < 2 ^ (Z.of_N k - 1))%Z by (apply Z.pow_pos_nonneg; lia).
  pose proof (Z.mod_pos_bound z (2 ^ Z.of_N k) ltac:(lia)) as Hm.
  apply (twos_unique (Z.of_N k) (to_unsigned k z)); [lia| |].
  - apply to_signed_twos; [assumption|]. unfold to_unsigned.
    apply N2Z.inj_lt. rewrite Z2N.id by lia. rewrite N2Z.inj_pow. change (Z.of_N 2) with 2%Z. lia.
  - split; [assumption|]. unfold to_unsigned. rewrite Z2N.id by lia. rewrite Z.mod_mod by lia. reflexivity.
Qed.

Lemma to_unsigned_bound k z : to_unsigned k z < 2 ^ k.
Proof.
  unfold to_unsigned. apply N2Z.inj_lt. rewrite N2Z.inj_pow. change (Z.of_N 2) with 2%Z.
  assert (0 < 2 ^ Z.of_N k)%Z by (apply Z.pow_pos_nonneg; lia).
  pose proof (Z.mod_pos_bound z (2 ^ Z.of_N k) ltac:(lia)) as Hm.
  rewrite Z2N.id by lia. lia.
Qed.
