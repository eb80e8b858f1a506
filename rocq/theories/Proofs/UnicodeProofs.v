(** * UTF-8: the validation accepts exactly the encoded texts *)
From Coq Require Import List NArith ZArith Lia Arith Bool.
From Verif Require Import Model.Base Model.Utf8 Spec.Unicode Proofs.BaseLemmas.
Import ListNotations.
Open Scope N_scope.

Lemma in_range_spec lo hi b : in_range lo hi b = true <-> lo <= b2n b <= hi.
Proof. unfold in_range. rewrite andb_true_iff, !N.leb_le. reflexivity. Qed.
Ltac nlia := zify; Z.div_mod_to_equations; lia.
Lemma by_num b n : b2n b = n -> b = n2b n.
Proof. intros <-. symmetry. apply n2b_b2n. Qed.
Lemma num n : n < 256 -> b2n (n2b n) = n. Proof. apply b2n_n2b_small. Qed.

(** ** Encoded texts are accepted *)
Lemma valid_char n rest : scalar n -> utf8_valid (utf8 n ++ rest) = utf8_valid rest.
Proof.
  intros S. unfold utf8, scalar in *.
  destruct (n <? 0x80) eqn:E1; [|destruct (n <? 0x800) eqn:E2; [|destruct (n <? 0x10000) eqn:E3]]; rewrite ?N.ltb_lt, ?N.ltb_ge in *; cbn [map app utf8_valid]; unfold in_range, is_cont, in_range.
  - rewrite num by lia. destruct (N.ltb_spec n 0x80); [reflexivity|lia].
  - rewrite !num by nlia. destruct (N.ltb_spec (0xC0 + n / 64) 0x80); [nlia|].
    replace ((0xc2 <=? 0xC0 + n / 64) && (0xC0 + n / 64 <=? 0xdf)) with true by (symmetry; rewrite andb_true_iff, !N.leb_le; nlia).
    replace ((0x80 <=? 0x80 + n mod 64) && (0x80 + n mod 64 <=? 0xbf)) with true by (symmetry; rewrite andb_true_iff, !N.leb_le; nlia). reflexivity.
  - rewrite !num by nlia. destruct (N.ltb_spec (0xE0 + n / 4096) 0x80); [nlia|].
    replace ((0xc2 <=? 0xE0 + n / 4096) && (0xE0 + n / 4096 <=? 0xdf)) with false by (symmetry; rewrite andb_false_iff, !N.leb_gt; nlia).
    replace ((0xe0 <=? 0xE0 + n / 4096) && (0xE0 + n / 4096 <=? 0xef)) with true by (symmetry; rewrite andb_true_iff, !N.leb_le; nlia).
    replace ((0x80 <=? 0x80 + n mod 64) && (0x80 + n mod 64 <=? 0xbf)) with true by (symmetry; rewrite andb_true_iff, !N.leb_le; nlia).
    match goal with |- (?x && true && _) = _ => replace x with true end; [reflexivity|]. symmetry.
    destruct (N.eqb_spec (0xE0 + n / 4096) 0xe0); [|destruct (N.eqb_spec (0xE0 + n / 4096) 0xed)]; rewrite andb_true_iff, !N.leb_le; nlia.
  - rewrite !num by nlia. destruct (N.ltb_spec (0xF0 + n / 262144) 0x80); [nlia|].
    replace ((0xc2 <=? 0xF0 + n / 262144) && (0xF0 + n / 262144 <=? 0xdf)) with false by (symmetry; rewrite andb_false_iff, !N.leb_gt; nlia).
    replace ((0xe0 <=? 0xF0 + n / 262144) && (0xF0 + n / 262144 <=? 0xef)) with false by (symmetry; rewrite andb_false_iff, !N.leb_gt; nlia).
    replace ((0xf0 <=? 0xF0 + n / 262144) && (0xF0 + n / 262144 <=? 0xf4)) with true by (symmetry; rewrite andb_true_iff, !N.leb_le; nlia).
    replace ((0x80 <=? 0x80 + n mod 64) && (0x80 + n mod 64 <=? 0xbf)) with true by (symmetry; rewrite andb_true_iff, !N.leb_le; nlia).
    replace ((0x80 <=? 0x80 + n / 64 mod 64) && (0x80 + n / 64 mod 64 <=? 0xbf)) with true by (symmetry; rewrite andb_true_iff, !N.leb_le; nlia).
    match goal with |- (?x && true && true && _) = _ => replace x with true end; [reflexivity|]. symmetry.
    destruct (N.eqb_spec (0xF0 + n / 262144) 0xf0); [|destruct (N.eqb_spec (0xF0 + n / 262144) 0xf4)]; rewrite andb_true_iff, !N.leb_le; nlia.
Qed.
Lemma valid_text text : Forall scalar text -> utf8_valid (utf8_text text) = true.
Proof. unfold utf8_text. induction 1 as [|n text S _ IH]; [reflexivity|]. cbn [map concat]. rewrite valid_char; assumption. Qed.

(** ** What is accepted is an encoded text *)
Lemma utf8_one b : b2n b < 0x80 -> utf8 (b2n b) = [b].
Proof. intros H. unfold utf8. destruct (N.ltb_spec (b2n b) 0x80); [|lia]. cbn [map]. rewrite n2b_b2n. reflexivity. Qed.
Lemma utf8_two n b0 b1 : 0x80 <= n < 0x800 -> b2n b0 = 0xC0 + n / 64 -> b2n b1 = 0x80 + n mod 64 -> utf8 n = [b0; b1].
Proof.
  intros H H0 H1. unfold utf8. destruct (N.ltb_spec n 0x80); [lia|]. destruct (N.ltb_spec n 0x800); [|lia]. cbn [map].
  rewrite (by_num _ _ H0), (by_num _ _ H1). reflexivity.
Qed.
Lemma utf8_three n b0 b1 b2 : 0x800 <= n < 0x10000 -> b2n b0 = 0xE0 + n / 4096 -> b2n b1 = 0x80 + n / 64 mod 64 -> b2n b2 = 0x80 + n mod 64 -> utf8 n = [b0; b1; b2].
Proof.
  intros H H0 H1 H2. unfold utf8. destruct (N.ltb_spec n 0x80); [lia|]. destruct (N.ltb_spec n 0x800); [lia|]. destruct (N.ltb_spec n 0x10000); [|lia]. cbn [map].
  rewrite (by_num _ _ H0), (by_num _ _ H1), (by_num _ _ H2). reflexivity.
Qed.
Lemma utf8_four n b0 b1 b2 b3 : 0x10000 <= n -> b2n b0 = 0xF0 + n / 262144 -> b2n b1 = 0x80 + n / 4096 mod 64 -> b2n b2 = 0x80 + n / 64 mod 64 -> b2n b3 = 0x80 + n mod 64 ->
  utf8 n = [b0; b1; b2; b3].
Proof.
  intros H H0 H1 H2 H3. unfold utf8. destruct (N.ltb_spec n 0x80); [lia|]. destruct (N.ltb_spec n 0x800); [lia|]. destruct (N.ltb_spec n 0x10000); [lia|]. cbn [map].
  rewrite (by_num _ _ H0), (by_num _ _ H1), (by_num _ _ H2), (by_num _ _ H3). reflexivity.
Qed.
Lemma text_valid : forall k bs, (length bs <= k)%nat -> utf8_valid bs = true -> exists text, Forall scalar text /\ bs = utf8_text text.
Proof.
  unfold utf8_text, scalar. induction k as [|k IH]; intros bs L V.
  { destruct bs; [|cbn in L; lia]. exists []. auto. }
  destruct bs as [|b0 r0]; [exists []; auto|]. cbn [length] in L. cbn [utf8_valid] in V.
  destruct (N.ltb_spec (b2n b0) 0x80) as [E|E].
  { destruct (IH r0) as (t & St & Et); [lia|exact V|]. exists (b2n b0 :: t). split; [constructor; [lia|exact St]|]. cbn [map concat]. rewrite utf8_one by exact E. rewrite Et. reflexivity. }
  destruct r0 as [|b1 r1]; [discriminate|]. cbn [length] in L. destruct (in_range 0xc2 0xdf b0) eqn:E2.
  { apply andb_prop in V. destruct V as [V1 V]. apply in_range_spec in E2, V1. destruct (IH r1) as (t & St & Et); [lia|exact V|].
    exists ((b2n b0 - 0xC0) * 64 + (b2n b1 - 0x80) :: t). split; [constructor; [lia|exact St]|]. cbn [map concat]. rewrite (utf8_two _ b0 b1) by nlia. rewrite Et. reflexivity. }
  destruct r1 as [|b2 r2]; [discriminate|]. cbn [length] in L. destruct (in_range 0xe0 0xef b0) eqn:E3.
  { apply andb_prop in V. destruct V as [V V3]. apply andb_prop in V. destruct V as [V1 V2]. apply in_range_spec in E3, V2. destruct (IH r2) as (t & St & Et); [lia|exact V3|].
    assert (R : 0x80 <= b2n b1 <= 0xbf /\ (b2n b0 = 0xe0 -> 0xa0 <= b2n b1) /\ (b2n b0 = 0xed -> b2n b1 <= 0x9f)).
    { destruct (N.eqb_spec (b2n b0) 0xe0); [|destruct (N.eqb_spec (b2n b0) 0xed)]; apply in_range_spec in V1; lia. }
    exists ((b2n b0 - 0xE0) * 4096 + (b2n b1 - 0x80) * 64 + (b2n b2 - 0x80) :: t). split; [constructor; [|exact St]|].
    - destruct (N.eq_dec (b2n b0) 0xed), (N.eq_dec (b2n b0) 0xe0); lia.
    - cbn [map concat]. rewrite (utf8_three _ b0 b1 b2) by (destruct (N.eq_dec (b2n b0) 0xe0); nlia). rewrite Et. reflexivity. }
  destruct r2 as [|b3 r3]; [discriminate|]. cbn [length] in L. destruct (in_range 0xf0 0xf4 b0) eqn:E4; [|discriminate].
  apply andb_prop in V. destruct V as [V V4]. apply andb_prop in V. destruct V as [V V3]. apply andb_prop in V. destruct V as [V1 V2]. apply in_range_spec in E4, V2, V3.
  destruct (IH r3) as (t & St & Et); [lia|exact V4|].
  assert (R : 0x80 <= b2n b1 <= 0xbf /\ (b2n b0 = 0xf0 -> 0x90 <= b2n b1) /\ (b2n b0 = 0xf4 -> b2n b1 <= 0x8f)).
  { destruct (N.eqb_spec (b2n b0) 0xf0); [|destruct (N.eqb_spec (b2n b0) 0xf4)]; apply in_range_spec in V1; lia. }
  exists ((b2n b0 - 0xF0) * 262144 + (b2n b1 - 0x80) * 4096 + (b2n b2 - 0x80) * 64 + (b2n b3 - 0x80) :: t). split; [constructor; [|exact St]|].
  - destruct (N.eq_dec (b2n b0) 0xf4), (N.eq_dec (b2n b0) 0xf0); lia.
  - cbn [map concat]. rewrite (utf8_four _ b0 b1 b2 b3) by (destruct (N.eq_dec (b2n b0) 0xf0); nlia). rewrite Et. reflexivity.
Qed.
Lemma utf8_exact bs : utf8_valid bs = true <-> exists text, Forall scalar text /\ bs = utf8_text text.
Proof. split; [apply (text_valid (length bs)); lia|]. intros (text & S & ->). apply valid_text. exact S. Qed.

(** ** No two texts are encoded alike *)
Lemma cons_eq {A} (a b : A) x y : a :: x = b :: y -> a = b /\ x = y.
Proof. intros E. injection E. auto. Qed.
Lemma char_inj m n r s : scalar m -> scalar n -> utf8 m ++ r = utf8 n ++ s -> m = n /\ r = s.
Proof.
  intros M N. assert (Bm : m < 0x110000) by (destruct M; lia). assert (Bn : n < 0x110000) by (destruct N; lia). clear M N. unfold utf8.
  destruct (N.ltb_spec m 0x80); [|destruct (N.ltb_spec m 0x800); [|destruct (N.ltb_spec m 0x10000)]];
    (destruct (N.ltb_spec n 0x80); [|destruct (N.ltb_spec n 0x800); [|destruct (N.ltb_spec n 0x10000)]]); cbn [map app]; intros E;
    repeat match goal with H : _ :: _ = _ :: _ |- _ => apply cons_eq in H; destruct H end;
    repeat match goal with H : n2b _ = n2b _ |- _ => apply n2b_inj in H; [|nlia|nlia] end; try (exfalso; nlia); (split; [nlia|assumption]).
Qed.
Lemma text_inj : forall t u, Forall scalar t -> Forall scalar u -> utf8_text t = utf8_text u -> t = u.
Proof.
  unfold utf8_text. induction t as [|m t IH]; intros [|n u] St Su E; [reflexivity| | |].
  - cbn [map concat] in E. unfold utf8 in E. destruct (n <? 0x80), (n <? 0x800), (n <? 0x10000); discriminate.
  - cbn [map concat] in E. unfold utf8 in E. destruct (m <? 0x80), (m <? 0x800), (m <? 0x10000); discriminate.
  - inversion St; inversion Su; subst. cbn [map concat] in E. apply char_inj in E; [|assumption|assumption]. destruct E as [-> E]. rewrite (IH u); auto.
Qed.
