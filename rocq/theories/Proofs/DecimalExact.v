(** * Exactly when a packed DECIMAL prints right *)
From Coq Require Import List NArith Lia Arith Bool.
From Verif Require Import Model.Base Model.BytesParser Model.Fmt Model.Decimal Spec.Wire Spec.Temporal Spec.DecimalSpec
  Proofs.BaseLemmas Proofs.BytesParserProofs Proofs.CodecProofs Proofs.WireLemmas Proofs.CmdProofs Proofs.TimeProofs Proofs.DecimalProofs.
Import ListNotations.
Open Scope N_scope.

(** ** The sum of the digits, modulo nine *)
Fixpoint dsum (s : bytes) : N := match s with [] => 0 | b :: s => (b2n b - 48) + dsum s end.
Lemma dsum_app a b : dsum (a ++ b) = dsum a + dsum b.
Proof. induction a as [|x a IH]; [reflexivity|]. cbn [app dsum]. rewrite IH. lia. Qed.
Lemma dsum_digits k : forall n, n < 10 ^ N.of_nat k -> dsum (digits k n) mod 9 = n mod 9.
Proof.
  induction k as [|k IH]; intros n Hn.
  - change (10 ^ N.of_nat 0) with 1 in Hn. assert (n = 0) as -> by lia. reflexivity.
  - cbn [digits]. rewrite dsum_app. cbn [dsum]. assert (Hd : n mod 10 < 10) by (apply N.mod_lt; discriminate).
    rewrite b2n_n2b by lia.
    assert (Hq : n / 10 < 10 ^ N.of_nat k).
    { apply N.div_lt_upper_bound; [discriminate|]. replace (N.of_nat (S k)) with (N.succ (N.of_nat k)) in Hn by lia. rewrite N.pow_succ_r' in Hn. exact Hn. }
    specialize (IH _ Hq). set (q := dsum (digits k (n / 10))) in *. clearbody q. lia.
Qed.
Lemma dsum_numeral n s : numeral n s -> dsum s mod 9 = n mod 9.
Proof. intros (k & -> & H & _). apply dsum_digits. exact H. Qed.
Fixpoint nsum (l : list N) : N := match l with [] => 0 | n :: l => n + nsum l end.
Lemma nsum_app a b : nsum (a ++ b) = nsum a + nsum b.
Proof. induction a as [|x a IH]; [reflexivity|]. cbn [app nsum]. rewrite IH. lia. Qed.
Lemma dsum_numerals gs : dsum (flat_map fmt_n gs) mod 9 = nsum gs mod 9.
Proof.
  induction gs as [|g gs IH]; [reflexivity|]. cbn [flat_map nsum]. rewrite dsum_app.
  pose proof (dsum_numeral g _ (fmt_n_numeral g)) as H. set (a := dsum (fmt_n g)) in *. set (b := dsum (flat_map fmt_n gs)) in *. clearbody a b. lia.
Qed.
Lemma nsum_group9 k : forall n, n < 10 ^ (9 * N.of_nat k) -> nsum (group9 k n) mod 9 = n mod 9.
Proof.
  induction k as [|k IH]; intros n Hn.
  - change (10 ^ (9 * N.of_nat 0)) with 1 in Hn. assert (n = 0) as -> by lia. reflexivity.
  - cbn [group9]. rewrite nsum_app. cbn [nsum].
    assert (Hq : n / 10 ^ 9 < 10 ^ (9 * N.of_nat k)).
    { apply N.div_lt_upper_bound; [discriminate|]. rewrite <- N.pow_add_r. replace (9 + 9 * N.of_nat k) with (9 * N.of_nat (S k)) by lia. exact Hn. }
    specialize (IH _ Hq). set (q := nsum _) in *. clearbody q. change (10 ^ 9) with 1000000000 in *. lia.
Qed.

(** ** Integer parts of a multiple of nine digits *)
Lemma group9_top j : forall n, n < 10 ^ (9 + 9 * N.of_nat j) ->
  group9 (S j) n = n / 10 ^ (9 * N.of_nat j) :: group9 j (n mod 10 ^ (9 * N.of_nat j)).
Proof.
  induction j as [|j IH]; intros n Hn.
  - change (10 ^ (9 * N.of_nat 0)) with 1. change (10 ^ (9 + 9 * N.of_nat 0)) with (10 ^ 9) in Hn. cbn [group9 app]. rewrite N.div_1_r, N.mod_small by exact Hn. reflexivity.
  - change (group9 (S (S j)) n) with (group9 (S j) (n / 10 ^ 9) ++ [n mod 10 ^ 9]). rewrite IH.
    + cbn [app group9]. rewrite N.div_div by apply pow10_nz. rewrite <- N.pow_add_r. replace (9 * N.of_nat (S j)) with (9 + 9 * N.of_nat j) by (clear; lia).
      f_equal. rewrite N.pow_add_r. rewrite N.mod_mul_r by apply pow10_nz.
      rewrite (N.mul_comm (10 ^ 9)), N.div_add, N.mod_add by apply pow10_nz. rewrite (N.div_small (n mod 10 ^ 9)) by (apply N.mod_lt, pow10_nz).
      rewrite N.add_0_l, N.mod_mod by apply pow10_nz. reflexivity.
    + apply N.div_lt_upper_bound; [apply pow10_nz|]. rewrite <- N.pow_add_r. replace (9 + (9 + 9 * N.of_nat j)) with (9 + 9 * N.of_nat (S j)) by (clear; lia). exact Hn.
Qed.

Lemma read_decimal_nines k frac neg i f rest d r : i < 10 ^ (9 * N.of_nat (S k)) ->
  read_decimal (9 * N.of_nat (S k)) frac (decimal_bytes (9 * N.of_nat (S k)) frac neg i f ++ rest) = (Ok d, r) ->
  exists tl, d = mk_dec (9 * N.of_nat (S k)) frac neg
    ((i / 10 ^ (9 * N.of_nat k) + 2 ^ 31 :: group9 k (i mod 10 ^ (9 * N.of_nat k))) ++ tl).
Proof.
  intros Hi. set (g := i / 10 ^ (9 * N.of_nat k)). set (gi := group9 k (i mod 10 ^ (9 * N.of_nat k))). set (intg := 9 * N.of_nat (S k)) in *.
  assert (Ek : intg / 9 = N.of_nat (S k)) by (unfold intg; clear; lia).
  assert (Em : intg mod 9 = 0) by (unfold intg; clear; lia).
  assert (Hg : g < 10 ^ 9).
  { apply N.div_lt_upper_bound; [apply pow10_nz|]. rewrite <- N.pow_add_r. replace (9 * N.of_nat k + 9) with intg by (unfold intg; clear; lia). exact Hi. }
  assert (Hg31 : g < 2 ^ 31) by (change (10 ^ 9) with 1000000000 in Hg; change (2 ^ 31) with 2147483648; clear - Hg; lia).
  assert (G : int_groups intg i = g :: gi).
  { unfold int_groups. rewrite Em, Ek. change (0 =? 0) with true. cbv iota. cbn [app]. rewrite Nat2N.id.
    replace (9 * N.of_nat (S k)) with (9 + 9 * N.of_nat k) by (clear; lia).
    assert (Hi' : i < 10 ^ (9 + 9 * N.of_nat k)) by (replace (9 + 9 * N.of_nat k) with intg by (unfold intg; clear; lia); exact Hi).
    rewrite (N.mod_small i) by exact Hi'. rewrite group9_top by exact Hi'. reflexivity. }
  assert (B : exists tl, decimal_bytes intg frac neg i f = wbe 4 (sign_flip 3 neg g) ++ flat_map (cpl 4 neg) gi ++ tl).
  { unfold decimal_bytes. rewrite G. unfold int_widths. rewrite Em, Ek, Nat2N.id. change (0 =? 0) with true. cbv iota. cbn [app repeat].
    change (wbes (4%nat :: repeat 4%nat k ++ frac_widths frac) (g :: gi ++ frac_groups frac f))
      with (wbe 4 g ++ wbes (repeat 4%nat k ++ frac_widths frac) (gi ++ frac_groups frac f)).
    rewrite wbes_app by (rewrite repeat_length; symmetry; apply group9_length).
    rewrite wbes_4 by apply group9_length. set (t := wbes (frac_widths frac) (frac_groups frac f)).
    destruct (flip_first_wbe 3 neg g Hg31) as [F _]. rewrite <- cpl_flat.
    assert (Nn : wbe 4 g <> []) by (rewrite wbe_cons; discriminate).
    destruct neg; cbv iota in F |- *.
    - rewrite !map_app, flip_first_app by (intros H; apply map_eq_nil in H; contradiction). rewrite F. eexists. reflexivity.
    - rewrite flip_first_app by exact Nn. rewrite F. eexists. reflexivity. }
  destruct B as (tl & B). rewrite B, <- !app_assoc. unfold read_decimal. change DIG_PER_DEC1 with 9. rewrite Ek.
  replace (intg - N.of_nat (S k) * 9) with 0 by (unfold intg; clear; lia).
  assert (T : exists n, tget DIG_TO_BYTES (frac - frac / 9 * 9) = Ok n).
  { replace (frac - frac / 9 * 9) with (frac mod 9) by (clear; lia).
    destruct (mod9_cases frac) as [->|[->|[->|[->|[->|[->|[->|[->| ->]]]]]]]]; eexists; reflexivity. }
  destruct T as (n & T).
  erewrite pbind_ok; [|reflexivity]. erewrite pbind_ok; [|unfold plift; rewrite T; reflexivity]. cbv beta.
  destruct (flip_first_wbe 3 neg g Hg31) as [_ (b & t & Eb & Eneg)].
  rewrite Eb at 1. cbn [app]. rewrite Eneg, Bool.negb_involutive. change (0 <? 0) with false. cbv iota.
  erewrite pbind_ok; [|reflexivity]. rewrite Nat2N.id.
  erewrite pbind_ok.
  2:{ cbn [prepeat]. eapply eq_trans; [eapply pbind_ok; apply read_fragment_flipped; exact Hg31|].
    eapply eq_trans; [eapply pbind_ok; apply read_fragments|reflexivity]. }
  fold gi. cbn [app]. intros H. apply pbind_inv in H as (c & m1 & _ & H). apply pbind_inv in H as (e & m2 & _ & H).
  unfold pret in H. injection H as <- _. exists (c ++ e). reflexivity.
Qed.

(** ** The shape of what is printed *)
Definition alldigits (s : bytes) : Prop := Forall (fun b => 48 <= b2n b <= 57) s.
Lemma fmt_n_digits n : alldigits (fmt_n n).
Proof.
  destruct (fmt_n_numeral n) as (k & -> & _). apply Forall_forall. intros b H. apply digits_in in H. exact H.
Qed.
Lemma flat_digits gs : alldigits (flat_map fmt_n gs).
Proof. induction gs as [|g gs IH]; [constructor|]. cbn [flat_map]. apply Forall_app. split; [apply fmt_n_digits|exact IH]. Qed.
Lemma fmt_n_nonempty n : fmt_n n <> [].
Proof. destruct (fmt_n_numeral n) as (k & -> & _). destruct (digits_cons k n) as (b & r & -> & _). discriminate. Qed.
Lemma fmt_frags_inv d n : forall i s, fmt_frags d i n = Ok s -> s = flat_map fmt_n (firstn n (skipn i (d_buf d))) /\ (i + n <= length (d_buf d) \/ n = 0)%nat.
Proof.
  induction n as [|n IH]; intros i s H; [injection H as <-; split; [reflexivity|right; reflexivity]|].
  cbn [fmt_frags] in H. unfold buf_at in H. destruct (nth_error (d_buf d) i) as [x|] eqn:E; [|discriminate]. cbn [rbind] in H.
  destruct (fmt_frags d (S i) n) as [t| | |] eqn:F; try discriminate. injection H as <-. destruct (IH _ _ F) as [-> L].
  assert (Hi : (i < length (d_buf d))%nat) by (apply nth_error_Some; rewrite E; discriminate).
  split; [|left; lia]. apply nth_error_split in E as (l1 & l2 & E & <-). rewrite E.
  rewrite !skipn_app, Nat.sub_diag, skipn_all. replace (S (length l1) - length l1)%nat with 1%nat by lia.
  rewrite (skipn_all2 l1) by lia. reflexivity.
Qed.
Definition int_count (intg : N) : nat := (N.to_nat (intg / 9)%N + if (intg mod 9 =? 0)%N then 0 else 1)%nat.
Lemma fmt_shape d s : fmt_decimal d = Ok s -> d_buf d <> [] ->
  exists e, s = (if d_neg d then [n2b 45] else [])
    ++ flat_map fmt_n (firstn (int_count (d_intg d)) (d_buf d))
    ++ (if d_frac d =? 0 then [] else n2b 46 :: e) /\ alldigits e.
Proof.
  intros H Hb. unfold fmt_decimal in H. destruct d as [intg frac neg buf]. cbn [d_buf d_intg d_frac d_neg] in *.
  destruct buf as [|x buf]; [contradiction|]. change DIG_PER_DEC1 with 9 in H.
  replace (intg - intg / 9 * 9) with (intg mod 9) in H by (clear; lia). replace (frac - frac / 9 * 9) with (frac mod 9) in H by (clear; lia).
  set (d := mk_dec intg frac neg (x :: buf)) in *.
  assert (A : exists a b, s = (if neg then [n2b 45] else []) ++ (a ++ b) ++ skipn (length ((if neg then [n2b 45] else []) ++ (a ++ b))) s /\
     a ++ b = flat_map fmt_n (firstn (int_count intg) (x :: buf)) /\
     exists e, skipn (length ((if neg then [n2b 45] else []) ++ (a ++ b))) s = (if frac =? 0 then [] else n2b 46 :: e) /\ alldigits e).
  { assert (C : exists a b, (if 0 <? intg mod 9 then rmap fmt_n (buf_at d 0) else Ok []) = Ok a /\
        fmt_frags d (if 0 <? intg mod 9 then 1 else 0) (N.to_nat (intg / 9)) = Ok b).
    { destruct (if 0 <? intg mod 9 then _ else _) as [a| | |]; cbn [rbind] in H; try discriminate.
      destruct (fmt_frags _ _ _) as [b| | |]; cbn [rbind] in H; try discriminate. exists a, b. split; reflexivity. }
    destruct C as (a & b & Ea & Eb). rewrite Ea, Eb in H. cbn [rbind] in H. exists a, b.
    assert (Eab : a ++ b = flat_map fmt_n (firstn (int_count intg) (x :: buf))).
    { apply fmt_frags_inv in Eb as [-> _]. change (d_buf d) with (x :: buf). unfold int_count. destruct (N.eqb_spec (intg mod 9) 0) as [E0|E0].
      - rewrite E0 in *. change (0 <? 0) with false in *. cbv iota in *. injection Ea as <-. rewrite Nat.add_0_r. reflexivity.
      - assert (E1 : (0 <? intg mod 9) = true) by (apply N.ltb_lt; clear - E0; lia). rewrite E1 in *. injection Ea as <-.
        rewrite Nat.add_1_r. reflexivity. }
    assert (K : exists e, s = ((if neg then [n2b 45] else []) ++ (a ++ b)) ++ (if frac =? 0 then [] else n2b 46 :: e) /\ alldigits e).
    { destruct (frac =? 0).
      - injection H as <-. exists []. split; [rewrite app_nil_r; reflexivity|constructor].
      - destruct (fmt_frags d _ (N.to_nat (frac / 9))) as [c| | |] eqn:Ec; cbn [rbind] in H; try discriminate.
        apply fmt_frags_inv in Ec as [-> _].
        assert (Z : exists z, (if 0 <? frac mod 9
            then rbind (buf_at d ((if 0 <? intg mod 9 then 1 else 0) + N.to_nat (intg / 9) + N.to_nat (frac / 9)))
                   (fun f => rbind (tget POWERS_10 (9 - frac mod 9)) (fun p => Ok (fmt_n (f / p)))) else Ok []) = Ok z /\ alldigits z).
        { destruct (0 <? frac mod 9); [|exists []; split; [reflexivity|constructor]].
          destruct (buf_at d _) as [f| | |]; cbn [rbind] in H |- *; try discriminate.
          destruct (tget POWERS_10 _) as [q| | |]; cbn [rbind] in H |- *; try discriminate. eexists. split; [reflexivity|apply fmt_n_digits]. }
        destruct Z as (z & Ez & Hz). rewrite Ez in H. cbn [rbind] in H. injection H as <-.
        eexists. split; [rewrite <- !app_assoc; reflexivity|]. apply Forall_app. split; [apply flat_digits|exact Hz]. }
    destruct K as (e & Es & He).
    assert (Sk : skipn (length ((if neg then [n2b 45] else []) ++ (a ++ b))) s = (if frac =? 0 then [] else n2b 46 :: e)).
    { rewrite Es, skipn_app, skipn_all, Nat.sub_diag. reflexivity. }
    split; [rewrite Sk, app_assoc; exact Es|]. split; [exact Eab|]. exists e. split; [exact Sk|exact He]. }
  destruct A as (a & b & E1 & E2 & e & E3 & E4). exists e. split; [|exact E4]. rewrite <- E2, <- E3. exact E1.
Qed.

(** ** Exactly when the text is right *)
Lemma pow31_mod9 : 2 ^ 31 mod 9 = 2. Proof. reflexivity. Qed.
Lemma nines_sum k i : i < 10 ^ (9 * N.of_nat (S k)) ->
  ~ numeral i (flat_map fmt_n (i / 10 ^ (9 * N.of_nat k) + 2 ^ 31 :: group9 k (i mod 10 ^ (9 * N.of_nat k)))).
Proof.
  intros Hi H. apply dsum_numeral in H. rewrite dsum_numerals in H. cbn [nsum] in H.
  pose proof (nsum_group9 k (i mod 10 ^ (9 * N.of_nat k)) (N.mod_lt _ _ (pow10_nz _))) as G.
  assert (P : (10 ^ (9 * N.of_nat k)) mod 9 = 1).
  { clear. replace (9 * N.of_nat k) with (N.of_nat (9 * k)) by lia. induction (9 * k)%nat as [|j IH]; [reflexivity|].
    replace (N.of_nat (S j)) with (N.succ (N.of_nat j)) by lia. rewrite N.pow_succ_r'. rewrite N.mul_mod, IH by discriminate. reflexivity. }
  pose proof (N.div_mod i (10 ^ (9 * N.of_nat k)) (pow10_nz _)) as D.
  assert (M : i mod 9 = (i / 10 ^ (9 * N.of_nat k) + i mod 10 ^ (9 * N.of_nat k)) mod 9).
  { rewrite D at 1. rewrite N.add_mod, N.mul_mod, P, N.mul_1_l by discriminate. rewrite N.mod_mod by discriminate. rewrite <- N.add_mod by discriminate. reflexivity. }
  set (q := i / _) in *. set (m := i mod 10 ^ _) in *. set (sg := nsum _) in *. clearbody q m sg. change (2 ^ 31) with 2147483648 in H. lia.
Qed.

Lemma prepeat_len {A} (p : parser A) n : forall bs l r, prepeat n p bs = (Ok l, r) -> length l = n.
Proof.
  induction n as [|n IH]; intros bs l r H; cbn [prepeat] in H; [injection H as <- _; reflexivity|].
  apply pbind_inv in H as (a & m & _ & H). apply pbind_inv in H as (t & m2 & Ht & H). injection H as <- _. cbn [length]. f_equal. exact (IH _ _ _ Ht).
Qed.
Lemma read_decimal_fields intg frac bs d r : bs <> [] -> 0 < intg + frac -> read_decimal intg frac bs = (Ok d, r) ->
  d_intg d = intg /\ d_frac d = frac /\ d_buf d <> [].
Proof.
  intros Hb Hp H. unfold read_decimal in H. change DIG_PER_DEC1 with 9 in H. apply pbind_inv in H as (n1 & m1 & H1 & H). apply pbind_inv in H as (n2 & m2 & H2 & H).
  unfold plift in H1, H2. assert (Em : m2 = bs).
  { destruct (tget _ _); [injection H1 as _ <-|discriminate|discriminate|discriminate]. destruct (tget _ _); [injection H2 as _ <-; reflexivity|discriminate|discriminate|discriminate]. }
  clear H1 H2. subst m2. destruct bs as [|b0 bs]; [contradiction|].
  apply pbind_inv in H as (a & m3 & Ha & H). apply pbind_inv in H as (b & m4 & Hb' & H). apply pbind_inv in H as (c & m5 & Hc & H).
  apply pbind_inv in H as (e & m6 & He & H). injection H as <- _. cbn [d_intg d_frac d_buf]. split; [reflexivity|]. split; [reflexivity|].
  apply prepeat_len in Hb'. apply prepeat_len in Hc. intros Z. apply app_eq_nil in Z as [-> Z]. apply app_eq_nil in Z as [-> Z]. apply app_eq_nil in Z as [-> ->].
  cbn [length] in Hb', Hc.
  destruct (N.ltb_spec 0 (intg - intg / 9 * 9)) as [L|L].
  { apply pbind_inv in Ha as (? & ? & _ & Ha). discriminate Ha. }
  destruct (N.ltb_spec 0 (frac - frac / 9 * 9)) as [L2|L2].
  { apply pbind_inv in He as (? & ? & _ & He). apply pbind_inv in He as (? & ? & _ & He). apply pbind_inv in He as (? & ? & _ & He). discriminate He. }
  clear - Hp Hb' Hc L L2. lia.
Qed.
Lemma decimal_bytes_nonempty intg frac neg i f : 0 < intg + frac -> decimal_bytes intg frac neg i f <> [].
Proof.
  intros Hp. unfold decimal_bytes.
  assert (W : wbes (int_widths intg ++ frac_widths frac) (int_groups intg i ++ frac_groups frac f) <> []).
  { assert (Z : forall k n, wbe (S k) n <> []) by (intros k n; rewrite wbe_cons; discriminate).
    assert (Zd : forall x, x mod 9 <> 0 -> exists w, dig_bytes (x mod 9) = S w).
    { intros x. destruct (mod9_cases x) as [H|[H|[H|[H|[H|[H|[H|[H|H]]]]]]]]; rewrite H; intros K; try (eexists; reflexivity). contradiction. }
    assert (G9 : forall k n, exists h t, group9 (S k) n = h :: t) by (intros k n; pose proof (group9_length (S k) n) as L; destruct (group9 (S k) n); [discriminate|eauto]).
    unfold int_widths, int_groups. destruct (N.eqb_spec (intg mod 9) 0) as [E|E].
    2:{ destruct (Zd _ E) as (w & ->). cbn [app wbes]. intros K. apply app_eq_nil in K as [K _]. exact (Z _ _ K). }
    cbn [app]. destruct (N.to_nat (intg / 9)) as [|k] eqn:Ek.
    2:{ destruct (G9 k (i mod 10 ^ (9 * (intg / 9)))) as (h & t & ->). cbn [repeat app wbes]. intros K. apply app_eq_nil in K as [K _]. exact (Z _ _ K). }
    cbn [repeat group9 app]. unfold frac_widths, frac_groups. destruct (N.to_nat (frac / 9)) as [|k] eqn:Ef.
    2:{ destruct (G9 k (f / 10 ^ (frac mod 9))) as (h & t & ->). cbn [repeat app wbes]. intros K. apply app_eq_nil in K as [K _]. exact (Z _ _ K). }
    destruct (N.eqb_spec (frac mod 9) 0) as [E2|E2]; [clear - Hp E E2 Ek Ef; lia|].
    destruct (Zd _ E2) as (w & ->). cbn [repeat group9 app wbes]. intros K. apply app_eq_nil in K as [K _]. exact (Z _ _ K). }
  destruct neg.
  - destruct (wbes _ _) as [|b l]; [contradiction|discriminate].
  - destruct (wbes _ _) as [|b l]; [contradiction|discriminate].
Qed.
Lemma alldigits_no_dot s : alldigits s -> ~ In (n2b 46) s.
Proof. intros H K. unfold alldigits in H. rewrite Forall_forall in H. apply H in K. change (b2n (n2b 46)) with 46 in K. lia. Qed.
Lemma numeral_digits n s : numeral n s -> alldigits s /\ s <> [].
Proof.
  intros H. rewrite (numeral_unique _ _ _ H (fmt_n_numeral n)). split; [apply fmt_n_digits|apply fmt_n_nonempty].
Qed.
(** the sign, the digits before the dot: how a text comes apart *)
Lemma sign_split (n1 n2 : bool) a b x y : alldigits (firstn 1 a) -> alldigits (firstn 1 b) -> a ++ x <> [] -> b ++ y <> [] ->
  (a = [] -> firstn 1 x = [n2b 46]) -> (b = [] -> firstn 1 y = [n2b 46]) ->
  (if n1 then [n2b 45] else []) ++ a ++ x = (if n2 then [n2b 45] else []) ++ b ++ y -> a ++ x = b ++ y.
Proof.
  assert (H : forall a x, alldigits (firstn 1 a) -> a ++ x <> [] -> (a = [] -> firstn 1 x = [n2b 46]) -> forall t, a ++ x <> n2b 45 :: t).
  { clear. intros [|c a] x H1 H2 H3 t E.
    - cbn [app] in E. subst x. specialize (H3 eq_refl). discriminate H3.
    - cbn [app] in E. injection E as -> _. cbn [firstn] in H1. inversion H1 as [|? ? K _]. change (b2n (n2b 45)) with 45 in K. lia. }
  intros A B Na Nb Ha Hb E. destruct n1, n2; cbn [app] in E.
  - injection E as E. exact E.
  - exfalso. symmetry in E. exact (H b y B Nb Hb _ E).
  - exfalso. exact (H a x A Na Ha _ E).
  - exact E.
Qed.

Theorem decimal_never intg frac neg i f rest d r s : 0 < intg + frac -> intg mod 9 = 0 -> i < 10 ^ intg ->
  read_decimal intg frac (decimal_bytes intg frac neg i f ++ rest) = (Ok d, r) -> fmt_decimal d = Ok s ->
  exists a x, s = (if d_neg d then [n2b 45] else []) ++ a ++ x /\ (a = [] \/ x = [] \/ firstn 1 x = [n2b 46]) /\ alldigits a /\
    (x = [] <-> frac = 0) /\ (x <> [] -> exists e, x = n2b 46 :: e /\ alldigits e) /\ ~ numeral i a.
Proof.
  intros Hp H9 Hi R F. assert (Nb : decimal_bytes intg frac neg i f ++ rest <> []).
  { intros K. apply app_eq_nil in K as [K _]. exact (decimal_bytes_nonempty _ _ _ _ _ Hp K). }
  destruct (read_decimal_fields _ _ _ _ _ Nb Hp R) as (E1 & E2 & E3).
  destruct (fmt_shape d s F E3) as (e & Es & He). rewrite E1, E2 in Es.
  exists (flat_map fmt_n (firstn (int_count intg) (d_buf d))), (if frac =? 0 then [] else n2b 46 :: e).
  split; [exact Es|]. split; [destruct (frac =? 0); [right; left; reflexivity|right; right; reflexivity]|].
  split; [apply flat_digits|].
  split; [destruct (N.eqb_spec frac 0); split; intros; try reflexivity; try assumption; try discriminate; contradiction|].
  split; [intros K; destruct (frac =? 0); [contradiction|eauto]|].
  assert (C : intg = 0 \/ exists k, intg = 9 * N.of_nat (S k)).
  { destruct (N.eq_dec intg 0); [left; assumption|right]. pose proof (N.div_mod intg 9 ltac:(discriminate)) as D. rewrite H9, N.add_0_r in D. set (q := intg / 9) in *.
    exists (N.to_nat (N.pred q)). rewrite D. f_equal. clearbody q. clear - D n. lia. }
  destruct C as [->|(k & ->)].
  - change (int_count 0) with O. cbn [firstn flat_map]. intros K. apply numeral_digits in K as [_ K]. contradiction.
  - destruct (read_decimal_nines k frac neg i f rest d r Hi R) as (tl & ->). cbn [d_buf].
    set (gs := _ :: group9 k _). assert (L : int_count (9 * N.of_nat (S k)) = length gs).
    { unfold gs, int_count. cbn [length]. rewrite group9_length. replace (9 * N.of_nat (S k) mod 9) with 0 by (clear; lia). change (0 =? 0) with true. cbv iota. clear. lia. }
    rewrite L, firstn_app, Nat.sub_diag, firstn_all, app_nil_r. unfold gs. apply nines_sum. exact Hi.
Qed.

Theorem decimal_exact intg frac neg i f rest : 0 < intg + frac -> i < 10 ^ intg ->
  (exists d s, read_decimal intg frac (decimal_bytes intg frac neg i f ++ rest) = (Ok d, rest) /\ fmt_decimal d = Ok s /\ decimal_text frac neg i f s)
  <-> intg mod 9 <> 0 /\ no_padding intg frac i f.
Proof.
  intros Hp Hi. split.
  - intros (d & s & R & F & T). destruct (N.eq_dec (intg mod 9) 0) as [E|E].
    + exfalso. destruct (decimal_never intg frac neg i f rest d rest s Hp E Hi R F) as (a & x & Es & _ & Ha & Hx & He & Hn).
      destruct T as (si & Ni & Et). rewrite Es in Et. destruct (numeral_digits _ _ Ni) as [Hs Ns].
      assert (F1 : forall l, alldigits l -> alldigits (firstn 1 l)) by (intros [|c l] H; [constructor|inversion H; constructor; [assumption|constructor]]).
      assert (Ax : a ++ x <> []).
      { intros K. apply app_eq_nil in K as [-> ->]. assert (frac = 0) as -> by (apply Hx; reflexivity).
        cbn [app] in Et. change (0 =? 0) with true in Et. cbv iota in Et. rewrite !app_nil_r in Et. symmetry in Et.
        destruct si as [|c si]; [contradiction|]. inversion Hs as [|? ? K _].
        destruct (d_neg d), neg; cbn [app] in Et; try discriminate.
        injection Et as -> _. change (b2n (n2b 45)) with 45 in K. lia. }
      assert (E3 : a ++ x = si ++ (if frac =? 0 then [] else n2b 46 :: digits (N.to_nat frac) f)).
      { apply (sign_split (d_neg d) neg); [apply F1; exact Ha|apply F1; exact Hs|exact Ax|destruct si; [contradiction|discriminate]| |intros ->; contradiction|exact Et].
        intros ->. destruct x as [|c x]; [contradiction|]. destruct (He ltac:(discriminate)) as (e & -> & _). reflexivity. }
      apply Hn. destruct (N.eqb_spec frac 0) as [E0|E0].
      * assert (x = []) as -> by (apply Hx; exact E0). rewrite !app_nil_r in E3. rewrite E3. exact Ni.
      * destruct x as [|c x]; [exfalso; apply E0, Hx; reflexivity|]. destruct (He ltac:(discriminate)) as (e & Ex & _). rewrite Ex in E3.
        apply dot_split in E3 as [-> _]; [exact Ni|apply alldigits_no_dot; exact Ha|apply alldigits_no_dot; exact Hs].
    + split; [exact E|]. destruct (decimal_print intg frac neg i f rest E Hi) as (d' & s' & R' & F' & _ & I).
      rewrite R in R'. injection R' as <-. rewrite F in F'. injection F' as <-. apply I. exact T.
  - intros [E P]. destruct (decimal_print intg frac neg i f rest E Hi) as (d & s & R & F & _ & I). exists d, s.
    split; [exact R|]. split; [exact F|]. apply I. exact P.
Qed.
