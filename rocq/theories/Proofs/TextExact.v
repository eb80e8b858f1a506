(** * Exactly which texts are read back *)
From Coq Require Import Strings.String.
From Coq Require Import List NArith ZArith Lia Arith Bool.
From Verif Require Import Model.Base Model.Utf8 Model.Auth Model.Fmt Model.Col Model.Stmt Model.Transform
  Spec.Wire Spec.Temporal Spec.SqlSpec Proofs.BaseLemmas Proofs.TimeProofs Proofs.SqlProofs Proofs.SqlFindings.
Import ListNotations.
Open Scope N_scope.

Lemma reads_unique esc s t1 t2 : reads_as esc s t1 -> reads_as esc s t2 -> t1 = t2.
Proof.
  intros H1 H2. specialize (H1 [] I). specialize (H2 [] I). rewrite H1 in H2. cbn in H2. injection H2 as H2. rewrite !app_nil_r in H2. exact H2.
Qed.
Lemma lex_text_inv esc w t ts : lex esc (quote :: w) = Some (TkText t :: ts) -> exists r, scan_text esc w = Some (t, r).
Proof.
  unfold lex. cbn [length lex_from]. change (is_space quote) with false. cbv iota. unfold token_of. rewrite byte_eqb_refl.
  destruct (scan_text esc w) as [[t' r]|]; [|discriminate]. destruct (lex_from _ _ _); [|discriminate]. cbn. intros H. injection H as -> _. eauto.
Qed.

(** what is written for a byte between quotes; [wide]: the text has a quote *)
Definition put (wide : bool) (b : byte) : bytes :=
  if Byte.eqb b quote then [quote; quote]
  else if wide && (128 <=? b2n b) then [n2b (192 + b2n b / 64); n2b (128 + b2n b mod 64)] else [b].
Definition put_all (wide : bool) (s : bytes) : bytes := flat_map (put wide) s.
Lemma put_quote wide : put wide quote = [quote; quote]. Proof. reflexivity. Qed.
Lemma put_low wide b : b <> quote -> b2n b < 128 \/ wide = false -> put wide b = [b].
Proof.
  intros H K. unfold put. rewrite byte_eqb_neq by exact H. destruct K as [K| ->]; [|reflexivity].
  apply N.leb_gt in K. rewrite K, andb_false_r. reflexivity.
Qed.
Lemma put_high b : 128 <= b2n b -> exists c d, put true b = [c; d] /\ 192 <= b2n c /\ 128 <= b2n d.
Proof.
  intros H. pose proof (b2n_lt b) as L. unfold put. rewrite byte_eqb_neq by (intros ->; change (b2n quote) with 39 in H; lia).
  apply N.leb_le in H. rewrite H. apply N.leb_le in H. cbn [andb]. eexists _, _. split; [reflexivity|].
  rewrite !b2n_n2b by lia. lia.
Qed.
Lemma lit_string_put bs s : lit_string bs = Ok s -> exists wide, s = put_all wide bs /\ (wide = true <-> In quote bs) /\ (wide = false -> utf8_valid bs = true).
Proof.
  unfold lit_string. fold quote. destruct (existsb (fun b => Byte.eqb b quote) bs) eqn:E; cbn [negb].
  - intros H. injection H as <-. exists true. split; [|split; [|discriminate]].
    + unfold put_all. apply flat_map_ext. intros b. unfold put. destruct (Byte.eqb b quote); [reflexivity|]. unfold push_char.
      change 0x80 with 128. change 0xc0 with 192. destruct (N.ltb_spec (b2n b) 128), (N.leb_spec 128 (b2n b)); try lia; reflexivity.
    + split; [|reflexivity]. intros _. apply existsb_exists in E as (b & Hb & E). apply byte_eqb_eq in E. subst b. exact Hb.
  - destruct (utf8_valid bs) eqn:U; [|discriminate]. intros H. injection H as <-. exists false.
    assert (Nq : ~ In quote bs).
    { intros H. apply not_true_iff_false in E. apply E. apply existsb_exists. exists quote. split; [exact H|apply byte_eqb_refl]. }
    split; [|split; [split; [discriminate|intros H; contradiction]|reflexivity]].
    clear - Nq. induction bs as [|b bs IH]; [reflexivity|]. cbn [put_all flat_map].
    rewrite put_low; [|intros ->; apply Nq; left; reflexivity|right; reflexivity]. cbn [app]. f_equal. apply IH. intros K. apply Nq; right; exact K.
Qed.

Section Scan.
  Variable esc wide : bool.
  Let scan (s : bytes) := scan_text esc (put_all wide s ++ [quote]).
  Lemma high_plain b : 128 <= b2n b -> Byte.eqb b quote = false /\ Byte.eqb b backslash = false.
  Proof. intros H. split; apply byte_eqb_neq; intros ->; [change (b2n quote) with 39 in H|change (b2n backslash) with 92 in H]; lia. Qed.
  Lemma scan_high b w : 128 <= b2n b -> scan_text esc (b :: w) = match scan_text esc w with Some (t, r) => Some (b :: t, r) | None => None end.
  Proof. intros H. destruct (high_plain b H) as [E1 E2]. cbn [scan_text]. rewrite E1, E2, andb_false_r. reflexivity. Qed.
  Lemma unescape_first c : exists x l, unescape c = x :: l /\ (x = backslash -> (l = [] /\ c = backslash) \/ (l = [c] /\ (b2n c = 37 \/ b2n c = 95))).
  Proof.
    destruct c; vm_compute; eexists _, _; (split; [reflexivity|]);
      first [discriminate | intros _; first [left; split; reflexivity | right; split; [reflexivity|first [left; reflexivity|right; reflexivity]]]].
  Qed.
  Lemma bs_not_quote : backslash <> quote. Proof. discriminate. Qed.
  (** what an escape reads *)
  Lemma scan_escape s r t : esc = true -> scan (backslash :: s) = Some (t, r) ->
    exists c s2 t2, scan_text esc s2 = Some (t2, r) /\ t = unescape c ++ t2 /\ put_all wide s ++ [quote] = c :: s2.
  Proof.
    intros -> H. unfold scan, put_all in H. cbn [flat_map] in H. rewrite put_low in H by (first [discriminate|left; reflexivity]).
    cbn [app scan_text] in H. rewrite byte_eqb_neq in H by discriminate. rewrite byte_eqb_refl in H. cbn [andb] in H. fold (put_all wide s) in H.
    destruct (put_all wide s ++ [quote]) as [|c s2] eqn:E; [discriminate|]. destruct (scan_text true s2) as [[t2 r2]|] eqn:E2; [|discriminate].
    injection H as <- <-. eauto 10.
  Qed.
  Lemma classify b : b = quote \/ (esc = true /\ b = backslash) \/
    (b <> quote /\ (b2n b < 128 \/ wide = false) /\ (esc = false \/ b <> backslash)) \/ (wide = true /\ 128 <= b2n b).
  Proof.
    destruct (Byte.eqb b quote) eqn:Eq; [left; apply byte_eqb_eq; exact Eq|]. right.
    assert (Nq : b <> quote) by (intros ->; rewrite byte_eqb_refl in Eq; discriminate).
    destruct (Byte.eqb b backslash) eqn:Eb.
    - apply byte_eqb_eq in Eb. subst b. destruct esc; [left; split; reflexivity|]. right. left. split; [exact Nq|]. split; [left; reflexivity|left; reflexivity].
    - assert (Nb : b <> backslash) by (intros ->; rewrite byte_eqb_refl in Eb; discriminate). right.
      destruct (N.lt_ge_cases (b2n b) 128) as [Hb|Hb]; [left; auto|]. destruct wide; [right; auto|left; auto].
  Qed.
  Definition prefixed (p : bytes) (o : option (bytes * bytes)) : option (bytes * bytes) :=
    match o with Some (t, r) => Some (p ++ t, r) | None => None end.
  Lemma step_quote s : scan (quote :: s) = prefixed [quote] (scan s).
  Proof. unfold scan, put_all. cbn [flat_map]. rewrite put_quote. cbn [app scan_text]. rewrite byte_eqb_refl. reflexivity. Qed.
  Lemma step_plain b s : b <> quote -> b2n b < 128 \/ wide = false -> esc = false \/ b <> backslash -> scan (b :: s) = prefixed [b] (scan s).
  Proof.
    intros H1 H2 H3. unfold scan, put_all. cbn [flat_map]. rewrite put_low by assumption. cbn [app scan_text]. rewrite byte_eqb_neq by exact H1.
    assert (E : esc && Byte.eqb b backslash = false) by (destruct H3 as [-> |H3]; [reflexivity|rewrite byte_eqb_neq by exact H3; apply andb_false_r]).
    rewrite E. reflexivity.
  Qed.
  Lemma step_high b s : wide = true -> 128 <= b2n b -> exists c d, put wide b = [c; d] /\ 192 <= b2n c /\ 128 <= b2n d /\ scan (b :: s) = prefixed [c; d] (scan s).
  Proof.
    intros W H. destruct (put_high b H) as (c & d & E & Hc & Hd). exists c, d. rewrite W at 1. split; [exact E|]. split; [exact Hc|]. split; [exact Hd|].
    unfold scan, put_all. cbn [flat_map]. rewrite W at 1. rewrite E. cbn [app]. rewrite scan_high by lia. rewrite scan_high by exact Hd.
    destruct (scan_text _ _) as [[? ?]|]; reflexivity.
  Qed.
  Lemma put_head s c s2 : c <> quote -> b2n c < 128 -> put_all wide s ++ [quote] = c :: s2 -> exists s', s = c :: s' /\ s2 = put_all wide s' ++ [quote].
  Proof.
    intros Hq Hc E. destruct s as [|b s]; [cbn in E; injection E as <- _; contradiction|].
    unfold put_all in E. cbn [flat_map] in E. destruct (classify b) as [->|[[_ ->]|[(H1 & H2 & _)|[W H]]]].
    - rewrite put_quote in E. cbn [app] in E. injection E as <- _. contradiction.
    - rewrite put_low in E by (first [discriminate|left; reflexivity]). cbn [app] in E. injection E as <- <-. eauto.
    - rewrite put_low in E by assumption. cbn [app] in E. injection E as <- <-. eauto.
    - destruct (put_high b H) as (x & y & E2 & Hx & _). rewrite W, E2 in E. cbn [app] in E. injection E as <- _. lia.
  Qed.
  (** more backslashes are read than there are: impossible *)
  Lemma backslashes n : esc = true -> forall s k r, (length s <= n)%nat -> scan s = Some (repeat backslash (S k) ++ s, r) -> False.
  Proof.
    intros Ee. induction n as [|n IH]; intros [|b s] k r L H; cbn [length] in L; try lia.
    1, 2: unfold scan in H; cbn in H; discriminate H.
    destruct (classify b) as [->|[[_ ->]|[(H1 & H2 & H3)|[W Hb]]]].
    - rewrite step_quote in H. destruct (scan s) as [[? ?]|]; discriminate.
    - apply (scan_escape _ _ _ Ee) in H as (c & s2 & t2 & Hs & Et & Ep). destruct (unescape_first c) as (x & l & Eu & Hx). rewrite Eu in Et.
      cbn [repeat app] in Et. injection Et as <- Et. destruct (Hx eq_refl) as [[-> ->]|[-> Hc]].
      + apply put_head in Ep as (s' & -> & ->); [|discriminate|reflexivity]. cbn [app] in Et. subst t2. cbn [length] in L.
        apply (IH s' (S k) r); [lia|]. fold (scan s') in Hs. rewrite Hs. f_equal. f_equal.
        assert (C : forall j (l : bytes), repeat backslash j ++ backslash :: l = backslash :: repeat backslash j ++ l)
          by (clear; induction j as [|j IH]; intros l; [reflexivity|cbn [repeat app]; rewrite IH; reflexivity]).
        cbn [repeat app]. rewrite !C. reflexivity.
      + destruct k; cbn [repeat app] in Et; injection Et as <- _; change (b2n backslash) with 92 in Hc; lia.
    - rewrite step_plain in H by assumption. destruct (scan s) as [[? ?]|]; [|discriminate]. cbn [prefixed repeat app] in H. injection H as -> _ _.
      destruct H3 as [H3|H3]; [rewrite Ee in H3; discriminate|contradiction].
    - destruct (step_high b s W Hb) as (c & d & _ & Hc & _ & E). rewrite E in H. destruct (scan s) as [[? ?]|]; [|discriminate].
      cbn [prefixed repeat app] in H. injection H as -> _ _. change (b2n backslash) with 92 in Hc. lia.
  Qed.
  (** bytes from 128 on, in a text with a quote *)
  Definition high (b : byte) : Prop := 128 <= b2n b.
  Lemma high_span s : exists hi rest, s = hi ++ rest /\ Forall high hi /\ match rest with [] => True | b :: _ => ~ high b end.
  Proof.
    induction s as [|b s (hi & rest & -> & H1 & H2)]; [exists [], []; repeat split; constructor|].
    destruct (N.lt_ge_cases (b2n b) 128) as [Hb|Hb].
    - exists [], (b :: hi ++ rest). split; [reflexivity|]. split; [constructor|]. unfold high. lia.
    - exists (b :: hi), rest. split; [reflexivity|]. split; [constructor; assumption|exact H2].
  Qed.
  Lemma scan_highs hi rest : wide = true -> Forall high hi -> scan (hi ++ rest) = prefixed (put_all wide hi) (scan rest) /\
    Forall high (put_all wide hi) /\ length (put_all wide hi) = (2 * length hi)%nat.
  Proof.
    intros W. induction 1 as [|b hi Hb _ (E & F & L)]; [split; [cbn [app]; destruct (scan rest) as [[? ?]|]; reflexivity|split; [constructor|reflexivity]]|].
    destruct (step_high b (hi ++ rest) W Hb) as (c & d & Ep & Hc & Hd & E2). cbn [app put_all flat_map]. fold (put_all wide hi). rewrite Ep.
    split; [|split].
    - rewrite E2, E. destruct (scan rest) as [[? ?]|]; reflexivity.
    - constructor; [unfold high; lia|]. constructor; [exact Hd|exact F].
    - rewrite app_length, L. cbn [length]. lia.
  Qed.
  Lemma no_high b s t r : wide = true -> 128 <= b2n b -> scan (b :: s) = Some (t, r) -> t <> b :: s.
  Proof.
    intros W Hb H ->. destruct (high_span (b :: s)) as (hi & rest & E & F & R).
    destruct (scan_highs hi rest W F) as (E2 & F2 & L). rewrite E, E2 in H. destruct (scan rest) as [[t r2]|]; [|discriminate].
    cbn [prefixed] in H. injection H as H _.
    destruct hi as [|x hi]; [cbn [app] in E; subst rest; exact (R Hb)|].
    assert (K : nth_error (put_all wide (x :: hi) ++ t) (length (x :: hi)) = nth_error (x :: hi ++ rest) (length (x :: hi))) by (rewrite H; reflexivity).
    rewrite nth_error_app1 in K by (rewrite L; cbn [length]; lia).
    change (x :: hi ++ rest) with ((x :: hi) ++ rest) in K. rewrite nth_error_app2, Nat.sub_diag in K by lia.
    destruct (nth_error (put_all wide (x :: hi)) (length (x :: hi))) as [y|] eqn:Ey.
    - apply nth_error_In in Ey. rewrite Forall_forall in F2. apply F2 in Ey. destruct rest as [|z rest]; [discriminate|]. injection K as ->. exact (R Ey).
    - apply nth_error_None in Ey. rewrite L in Ey. cbn [length] in Ey. lia.
  Qed.
  Lemma read_back n : forall s r, (length s <= n)%nat -> scan s = Some (s, r) ->
    (esc = true -> kept_escapes s) /\ (wide = true -> Forall (fun b => b2n b < 128) s).
  Proof.
    induction n as [|n IH]; intros [|b s] r L H; cbn [length] in L; try lia; try (split; intros; [exact I|constructor]).
    destruct (classify b) as [->|[[Ee ->]|[(H1 & H2 & H3)|[W Hb]]]].
    - rewrite step_quote in H. destruct (scan s) as [[t r']|] eqn:E; [|discriminate]. cbn [prefixed app] in H. injection H as -> ->.
      destruct (IH s r ltac:(lia) E) as [K1 K2]. split; intros X; [split; [discriminate|exact (K1 X)]|]. constructor; [reflexivity|exact (K2 X)].
    - pose proof H as H'. apply (scan_escape _ _ _ Ee) in H as (c & s2 & t2 & Hs & Et & Ep). destruct (unescape_first c) as (x & l & Eu & Hx). rewrite Eu in Et.
      cbn [app] in Et. injection Et as <- Et. destruct (Hx eq_refl) as [[-> ->]|[-> Hc]].
      + exfalso. apply put_head in Ep as (s' & -> & ->); [|discriminate|reflexivity]. cbn [app] in Et. subst t2.
        fold (scan s') in Hs. exact (backslashes (length s') Ee s' 0 r (le_n _) Hs).
      + apply put_head in Ep as (s' & -> & ->); [|intros ->; change (b2n quote) with 39 in Hc; lia|lia]. cbn [app] in Et. injection Et as <-.
        cbn [length] in L. fold (scan s') in Hs. destruct (IH s' r ltac:(lia) Hs) as [K1 K2]. split; intros X.
        * split; [intros _; exists c, s'; split; [reflexivity|exact Hc]|]. split; [intros ->; change (b2n backslash) with 92 in Hc; lia|exact (K1 X)].
        * constructor; [reflexivity|]. constructor; [lia|exact (K2 X)].
    - rewrite step_plain in H by assumption. destruct (scan s) as [[t r']|] eqn:E; [|discriminate]. cbn [prefixed app] in H. injection H as -> ->.
      destruct (IH s r ltac:(lia) E) as [K1 K2]. split; intros X.
      + split; [|exact (K1 X)]. intros Eb. destruct H3 as [H3|H3]; [rewrite X in H3; discriminate|contradiction].
      + constructor; [|exact (K2 X)]. destruct H2 as [H2|H2]; [exact H2|rewrite X in H2; discriminate].
    - exfalso. exact (no_high b s _ r W Hb H eq_refl).
  Qed.
End Scan.

Theorem text_exact esc bs s : lit_string bs = Ok s -> reads_as esc (str "'" ++ s ++ str "'") [TkText bs] -> plain_text esc bs.
Proof.
  intros E R. destruct (lit_string_put bs s E) as (wide & -> & Hw & Hu). specialize (R [] I). rewrite app_nil_r in R.
  change (lex esc []) with (Some (@nil token)) in R. cbn [option_map app] in R.
  change (str "'" ++ put_all wide bs ++ str "'") with (quote :: put_all wide bs ++ [quote]) in R.
  apply lex_text_inv in R as (r & R). destruct (read_back esc wide (length bs) bs r (le_n _) R) as [K1 K2].
  destruct wide.
  - split; [|split; [exact K1|right; apply K2; reflexivity]]. apply utf8_ascii. intros b Hb. specialize (K2 eq_refl). rewrite Forall_forall in K2. exact (K2 b Hb).
  - split; [apply Hu; reflexivity|]. split; [exact K1|]. left. intros Q. apply Hw in Q. discriminate.
Qed.
