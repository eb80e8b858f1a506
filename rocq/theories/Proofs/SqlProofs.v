(** * SQL literals and statements *)
From Coq Require Import Strings.String.
From Verif Require Import Model.Base Model.BytesParser Model.Utf8 Model.Bitmap Model.Flags Model.Auth Model.Fmt Model.Time Model.Decimal Model.Col
  Model.Row Model.Rows Model.Stmt Model.Transform
  Spec.Nums Spec.Wire Spec.Temporal Spec.DecimalSpec Spec.SqlSpec
  Proofs.BaseLemmas Proofs.BytesParserProofs Proofs.CodecProofs Proofs.TimeProofs Proofs.DecimalProofs Proofs.CalendarProofs.
From Coq Require Import Lia.
Open Scope N_scope.

(** ** The lexer *)
Lemma byte_eqb_eq a b : Byte.eqb a b = true -> a = b.
Proof. apply Byte.byte_dec_bl. Qed.
Lemma byte_eqb_refl a : Byte.eqb a a = true.
Proof. destruct a; reflexivity. Qed.
Lemma byte_eqb_neq a b : a <> b -> Byte.eqb a b = false.
Proof. intros H. destruct (Byte.eqb a b) eqn:E; [apply byte_eqb_eq in E; contradiction|reflexivity]. Qed.
Lemma beqb_neq a : forall b, a <> b -> beqb a b = false.
Proof.
  induction a as [|x a IH]; intros [|y b] H; try reflexivity; [contradiction|]. cbn [beqb].
  destruct (Byte.eqb x y) eqn:E; [|reflexivity]. apply byte_eqb_eq in E. subst y. cbn. apply IH. intros ->. contradiction.
Qed.
Lemma neq_val a b : b2n a <> b2n b -> a <> b.
Proof. intros H ->. contradiction. Qed.

Lemma scan_text_len esc : forall n s t r, (length s <= n)%nat -> scan_text esc s = Some (t, r) -> (length r < length s)%nat.
Proof.
  induction n as [|n IH]; intros s t r Hn H; (destruct s as [|b s]; [discriminate|]); [cbn in Hn; lia|].
  cbn [length] in *. cbn [scan_text] in H. destruct (Byte.eqb b quote).
  - destruct s as [|c s]; [injection H as <- <-; cbn; lia|]. destruct (Byte.eqb c quote).
    + destruct (scan_text esc s) as [[t' r']|] eqn:E; [|discriminate]. injection H as <- <-. apply IH in E; cbn in *; lia.
    + injection H as <- <-. cbn. lia.
  - destruct (esc && Byte.eqb b backslash).
    + destruct s as [|c s]; [discriminate|]. destruct (scan_text esc s) as [[t' r']|] eqn:E; [|discriminate].
      injection H as <- <-. apply IH in E; cbn in *; lia.
    + destruct (scan_text esc s) as [[t' r']|] eqn:E; [|discriminate]. injection H as <- <-. apply IH in E; lia.
Qed.
Lemma scan_name_len : forall n s t r, (length s <= n)%nat -> scan_name s = Some (t, r) -> (length r < length s)%nat.
Proof.
  induction n as [|n IH]; intros s t r Hn H; (destruct s as [|b s]; [discriminate|]); [cbn in Hn; lia|].
  cbn [length] in *. cbn [scan_name] in H. destruct (Byte.eqb b backtick).
  - destruct s as [|c s]; [injection H as <- <-; cbn; lia|]. destruct (Byte.eqb c backtick).
    + destruct (scan_name s) as [[t' r']|] eqn:E; [|discriminate]. injection H as <- <-. apply IH in E; cbn in *; lia.
    + injection H as <- <-. cbn. lia.
  - destruct (scan_name s) as [[t' r']|] eqn:E; [|discriminate]. injection H as <- <-. apply IH in E; lia.
Qed.
Lemma scan_hex_len : forall n s t r, (length s <= n)%nat -> scan_hex s = Some (t, r) -> (length r < length s)%nat.
Proof.
  induction n as [|n IH]; intros s t r Hn H; (destruct s as [|b s]; [discriminate|]); [cbn in Hn; lia|].
  cbn [length] in *. cbn [scan_hex] in H. destruct (Byte.eqb b quote); [injection H as <- <-; lia|].
  destruct s as [|c s]; [discriminate|]. destruct (hex_val b), (hex_val c); try discriminate.
  destruct (scan_hex s) as [[t' r']|] eqn:E; [|discriminate]. injection H as <- <-. apply IH in E; cbn in *; lia.
Qed.
Lemma span_len p : forall s a r, span p s = (a, r) -> s = a ++ r.
Proof.
  induction s as [|b s IH]; intros a r H; cbn in H; [injection H as <- <-; reflexivity|].
  destruct (p b); [|injection H as <- <-; reflexivity]. destruct (span p s) as [a' r'] eqn:E. injection H as <- <-.
  rewrite (IH a' r' eq_refl). reflexivity.
Qed.
Lemma span_all p a r : forallb p a = true -> match r with [] => True | b :: _ => p b = false end -> span p (a ++ r) = (a, r).
Proof.
  intros Ha Hr. induction a as [|b a IH]; cbn [app].
  - destruct r as [|b r]; [reflexivity|]. cbn. rewrite Hr. reflexivity.
  - cbn in Ha. apply andb_prop in Ha as [Hb Ha]. cbn [span]. rewrite Hb, IH by exact Ha. reflexivity.
Qed.
Lemma token_of_len esc s t r : token_of esc s = Some (t, r) -> (length r < length s)%nat.
Proof.
  destruct s as [|b s]; [discriminate|]. unfold token_of. destruct (Byte.eqb b quote).
  { destruct (scan_text esc s) as [[x y]|] eqn:E; [|discriminate]. intros H; injection H as <- <-.
    apply (scan_text_len _ (length s)) in E; cbn; lia. }
  destruct (Byte.eqb b backtick).
  { destruct (scan_name s) as [[x y]|] eqn:E; [|discriminate]. intros H; injection H as <- <-.
    apply (scan_name_len (length s)) in E; cbn; lia. }
  destruct (is_dig b || is_let b) eqn:Ed; [|intros H; injection H as <- <-; cbn; lia].
  destruct (span (fun c => is_dig c || is_let c) (b :: s)) as [w r0] eqn:Es.
  assert (Hw : (0 < length w)%nat).
  { cbn in Es. rewrite Ed in Es. destruct (span _ s). injection Es as <- <-. cbn. lia. }
  apply span_len in Es. assert (Hl : (length (b :: s) = length w + length r0)%nat) by (rewrite Es, app_length; reflexivity).
  destruct (forallb is_dig w).
  { destruct r0 as [|d r1]; [intros H; injection H as <- <-; lia|]. destruct (Byte.eqb d (n2b 46)).
    - destruct (span is_dig r1) as [f r2] eqn:E2. apply span_len in E2. intros H; injection H as <- <-.
      rewrite Hl. cbn [length]. subst r1. rewrite app_length. lia.
    - intros H; injection H as <- <-. lia. }
  destruct (beqb w (str "x") || beqb w (str "X")).
  { destruct r0 as [|d r1]; [intros H; injection H as <- <-; lia|]. destruct (Byte.eqb d quote).
    - destruct (scan_hex r1) as [[x y]|] eqn:E; [|discriminate]. intros H; injection H as <- <-.
      apply (scan_hex_len (length r1)) in E; cbn in *; lia.
    - intros H; injection H as <- <-. lia. }
  intros H; injection H as <- <-. lia.
Qed.
Lemma lex_fuel esc : forall n s, (length s <= n)%nat -> forall m, (length s <= m)%nat -> lex_from n esc s = lex_from m esc s.
Proof.
  induction n as [|n IH]; intros s Hn m Hm; (destruct s as [|b s]; [destruct m; reflexivity|]); [cbn in Hn; lia|].
  destruct m as [|m]; [cbn in Hm; lia|]. cbn [length] in *. cbn [lex_from]. destruct (is_space b); [apply IH; lia|].
  destruct (token_of esc (b :: s)) as [[t r]|] eqn:E; [|reflexivity]. apply token_of_len in E. cbn in E.
  rewrite (IH r) with (m := m) by lia. reflexivity.
Qed.
Lemma lex_space esc b s : is_space b = true -> lex esc (b :: s) = lex esc s.
Proof. intros H. unfold lex. cbn [length lex_from]. rewrite H. reflexivity. Qed.
Lemma lex_token esc s t r : match s with [] => True | b :: _ => is_space b = false end ->
  token_of esc s = Some (t, r) -> lex esc s = option_map (cons t) (lex esc r).
Proof.
  intros Hs H. pose proof (token_of_len _ _ _ _ H) as L. destruct s as [|b s]; [discriminate|].
  unfold lex. cbn [length lex_from]. rewrite Hs, H. rewrite (lex_fuel esc (length s) r) with (m := length r) by (cbn in L; lia). reflexivity.
Qed.

(** what ends a word or a number *)
Definition ends (rest : bytes) : Prop :=
  match rest with [] => True | b :: _ => is_dig b || is_let b = false /\ b <> n2b 46 /\ b <> quote end.
Lemma delimited_ends rest : delimited rest -> ends rest.
Proof.
  destruct rest as [|b r]; [trivial|]. cbn [delimited ends]. intros H. unfold is_dig, is_let.
  destruct H as [H|[H|[H|[]]]]; rewrite <- H; (split; [reflexivity|split; apply neq_val; rewrite <- H; discriminate]).
Qed.
Lemma lex_word esc w rest : w <> [] -> forallb is_let w = true -> w <> str "x" -> w <> str "X" -> ends rest ->
  lex esc (w ++ rest) = option_map (cons (TkWord w)) (lex esc rest).
Proof.
  intros Hn Hw Hx HX He. destruct w as [|b w]; [contradiction|]. pose proof Hw as Hw0. cbn [forallb] in Hw. apply andb_prop in Hw as [Hb Hw].
  assert (Nsp : is_space b = false).
  { unfold is_let in Hb. unfold is_space. destruct (N.eqb_spec (b2n b) 32) as [E|]; [rewrite E in Hb; discriminate|].
    destruct (N.leb_spec 9 (b2n b)); [|reflexivity]. destruct (N.leb_spec (b2n b) 13); [|reflexivity].
    exfalso. revert Hb. rewrite !orb_true_iff, !andb_true_iff, !N.leb_le, !N.eqb_eq. lia. }
  assert (Ndig : is_dig b = false).
  { unfold is_let in Hb. unfold is_dig. destruct (N.leb_spec 48 (b2n b)); [|reflexivity]. destruct (N.leb_spec (b2n b) 57); [|reflexivity].
    exfalso. revert Hb. rewrite !orb_true_iff, !andb_true_iff, !N.leb_le, !N.eqb_eq. lia. }
  assert (Nq : Byte.eqb b quote = false) by (apply byte_eqb_neq; intros ->; discriminate).
  assert (Nb : Byte.eqb b backtick = false) by (apply byte_eqb_neq; intros ->; discriminate).
  apply lex_token; [exact Nsp|]. unfold token_of. cbn [app]. rewrite Nq, Nb, Hb, orb_true_r.
  change (b :: w ++ rest) with ((b :: w) ++ rest). rewrite span_all.
  - cbn [forallb]. rewrite Ndig. cbn [andb].
    rewrite !beqb_neq by assumption. reflexivity.
  - clear - Hw0. induction (b :: w) as [|c l IH]; [reflexivity|]. cbn in *. apply andb_prop in Hw0 as [H1 H2].
    rewrite H1, orb_true_r, IH by exact H2. reflexivity.
  - destruct rest; [trivial|apply He].
Qed.
Lemma lex_sym esc b rest : is_space b = false -> b <> quote -> b <> backtick -> is_dig b || is_let b = false ->
  lex esc (b :: rest) = option_map (cons (TkSym b)) (lex esc rest).
Proof.
  intros H1 H2 H3 H4. apply lex_token; [exact H1|]. unfold token_of. rewrite !byte_eqb_neq, H4 by assumption. reflexivity.
Qed.
Lemma dig_facts b : is_dig b = true -> is_space b = false /\ Byte.eqb b quote = false /\ Byte.eqb b backtick = false.
Proof.
  unfold is_dig, is_space. rewrite andb_true_iff, !N.leb_le. intros H. split; [|split].
  - destruct (N.eqb_spec (b2n b) 32); [lia|]. cbn. destruct (N.leb_spec 9 (b2n b)); [|reflexivity]. apply N.leb_gt. lia.
  - apply byte_eqb_neq. intros ->. change (b2n quote) with 39 in H. lia.
  - apply byte_eqb_neq. intros ->. change (b2n backtick) with 96 in H. lia.
Qed.
Lemma lex_number esc s rest : number_text s -> ends rest -> lex esc (s ++ rest) = option_map (cons (TkNum s)) (lex esc rest).
Proof.
  intros (a & f & Hn & Hd & Hs) He. rewrite forallb_app in Hd. apply andb_prop in Hd as [Ha Hf].
  destruct a as [|b a]; [contradiction|]. pose proof Ha as Ha0. cbn [forallb] in Ha0. apply andb_prop in Ha0 as [Hb _].
  destruct (dig_facts b Hb) as (N1 & N2 & N3).
  assert (Hw : forallb (fun c => is_dig c || is_let c) (b :: a) = true).
  { clear - Ha. induction (b :: a) as [|c l IH]; [reflexivity|]. cbn in *. apply andb_prop in Ha as [-> H]. exact (IH H). }
  destruct Hs as [->| ->].
  - apply lex_token; [exact N1|]. unfold token_of. cbn [app]. rewrite N2, N3, Hb. cbn [orb].
    change (b :: a ++ rest) with ((b :: a) ++ rest). rewrite span_all; [|exact Hw|destruct rest; [trivial|apply He]].
    rewrite Ha. destruct rest as [|d r]; [reflexivity|]. rewrite byte_eqb_neq by apply He. reflexivity.
  - rewrite <- app_assoc. cbn [app]. apply lex_token; [exact N1|]. unfold token_of. cbn [app]. rewrite N2, N3, Hb. cbn [orb].
    change (b :: a ++ n2b 46 :: f ++ rest) with ((b :: a) ++ n2b 46 :: f ++ rest).
    rewrite span_all; [|exact Hw|reflexivity]. rewrite Ha. rewrite byte_eqb_refl.
    rewrite span_all; [reflexivity|exact Hf|]. destruct rest as [|d r]; [trivial|]. destruct He as [He _].
    apply orb_false_iff in He. apply He.
Qed.
Lemma lex_name esc name rest : ~ In backtick name -> match rest with [] => True | b :: _ => b <> backtick end ->
  lex esc (str "`" ++ name ++ str "`" ++ rest) = option_map (cons (TkName name)) (lex esc rest).
Proof.
  intros Hn Hr. apply lex_token; [reflexivity|]. unfold token_of. cbn [str app list_byte_of_string]. cbn [app].
  change (Byte.eqb (Ascii.byte_of_ascii _) quote) with false. change (Byte.eqb (Ascii.byte_of_ascii _) backtick) with true. cbv iota.
  enough (E : scan_name (name ++ backtick :: rest) = Some (name, rest)) by (unfold backtick in E; cbn in E |- *; rewrite E; reflexivity).
  induction name as [|b name IH]; cbn [app scan_name].
  - rewrite byte_eqb_refl. destruct rest as [|c r]; [reflexivity|]. rewrite byte_eqb_neq by exact Hr. reflexivity.
  - rewrite byte_eqb_neq by (intros ->; apply Hn; left; reflexivity). rewrite IH by (intros H; apply Hn; right; exact H). reflexivity.
Qed.
(** quoting doubles the quotes *)
Definition doubled (bs : bytes) : bytes := flat_map (fun b => if Byte.eqb b quote then [quote; quote] else [b]) bs.
Lemma no_backslash_kept bs : ~ In backslash bs -> kept_escapes bs.
Proof.
  induction bs as [|b bs IH]; intros H; [exact I|]. split; [intros ->; destruct H; left; reflexivity|].
  apply IH. intros K. apply H. right. exact K.
Qed.
Lemma kept_pair c : b2n c = 37 \/ b2n c = 95 -> unescape c = [backslash; c] /\ Byte.eqb c quote = false.
Proof.
  intros H. split; [unfold unescape; destruct H as [-> | ->]; reflexivity|].
  apply byte_eqb_neq. intros ->. change (b2n quote) with 39 in H. lia.
Qed.
Lemma scan_doubled esc bs rest : (esc = true -> kept_escapes bs) -> match rest with [] => True | b :: _ => b <> quote end ->
  scan_text esc (doubled bs ++ quote :: rest) = Some (bs, rest).
Proof.
  intros Hb Hr. remember (length bs) as n eqn:Hn. assert (L : (length bs <= n)%nat) by lia. clear Hn. revert bs L Hb.
  induction n as [|n IH]; intros [|b bs] L Hb; cbn [length] in L; try lia.
  1, 2: cbn [doubled flat_map app scan_text]; rewrite byte_eqb_refl; destruct rest as [|c r]; [reflexivity|];
    rewrite byte_eqb_neq by exact Hr; reflexivity.
  cbn [doubled flat_map]. fold (doubled bs). destruct (Byte.eqb b quote) eqn:E.
  - apply byte_eqb_eq in E. subst b. cbn [app scan_text]. rewrite byte_eqb_refl.
    rewrite IH; [reflexivity|lia|intros H; exact (proj2 (Hb H))].
  - cbn [app scan_text]. rewrite E. destruct (esc && Byte.eqb b backslash) eqn:E2.
    + apply andb_prop in E2 as [Ee E2]. apply byte_eqb_eq in E2. subst b. destruct (Hb Ee) as [K1 K2].
      destruct (K1 eq_refl) as (c & r & -> & Hc). destruct (kept_pair c Hc) as [Hu Hq].
      cbn [doubled flat_map]. rewrite Hq. fold (doubled r). cbn [app]. rewrite Hu. cbn [length] in L.
      rewrite IH; [reflexivity|lia|intros _; exact (proj2 K2)].
    + rewrite IH; [reflexivity|lia|intros H; exact (proj2 (Hb H))].
Qed.
Lemma lex_text esc bs rest : (esc = true -> kept_escapes bs) -> match rest with [] => True | b :: _ => b <> quote end ->
  lex esc (str "'" ++ doubled bs ++ str "'" ++ rest) = option_map (cons (TkText bs)) (lex esc rest).
Proof.
  intros Hb Hr. apply lex_token; [reflexivity|].
  change (str "'" ++ doubled bs ++ str "'" ++ rest) with (quote :: doubled bs ++ quote :: rest).
  unfold token_of. rewrite byte_eqb_refl, scan_doubled by assumption. reflexivity.
Qed.
Lemma delimited_noquote rest : delimited rest -> match rest with [] => True | b :: _ => b <> quote end.
Proof. intros H. apply delimited_ends in H. destruct rest; [trivial|]. apply H. Qed.

(** ** Numbers *)
Lemma digits_dig k n : forallb is_dig (digits k n) = true.
Proof.
  apply forallb_forall. intros c H. apply digits_in in H. unfold is_dig. rewrite andb_true_iff, !N.leb_le. exact H.
Qed.
Lemma numeral_number n s : numeral n s -> number_text s.
Proof.
  intros (k & -> & _). exists (digits (S k) n), []. rewrite app_nil_r. split; [|split; [apply digits_dig|left; reflexivity]].
  destruct (digits_cons k n) as (b & r & -> & _). discriminate.
Qed.
Lemma reads_number esc s : number_text s -> reads_as esc s [TkNum s].
Proof. intros H rest Hr. rewrite lex_number by (try assumption; apply delimited_ends; exact Hr). destruct (lex esc rest); reflexivity. Qed.
Lemma reads_minus esc s ts : reads_as esc s ts -> reads_as esc (n2b 45 :: s) (TkSym (n2b 45) :: ts).
Proof.
  intros H rest Hr. cbn [app]. rewrite lex_sym; try reflexivity; try (apply neq_val; discriminate).
  rewrite H by exact Hr. destruct (lex esc rest); reflexivity.
Qed.
Lemma reads_signed esc (neg : bool) s : number_text s ->
  reads_as esc ((if neg then [n2b 45] else []) ++ s) (minus neg ++ [TkNum s]).
Proof. intros H. destruct neg; cbn [minus app]; [apply reads_minus|]; apply reads_number; exact H. Qed.
Lemma fmt_z_value esc z : exists ts, value_tokens (VInt z) ts /\ reads_as esc (fmt_z z) ts.
Proof.
  pose proof (fmt_n_numeral (Z.abs_N z)) as Hn. exists (minus (z <? 0)%Z ++ [TkNum (fmt_n (Z.abs_N z))]). split.
  - exists (fmt_n (Z.abs_N z)). split; [exact Hn|reflexivity].
  - pose proof (reads_signed esc (z <? 0)%Z _ (numeral_number _ _ Hn)) as R. unfold fmt_z. destruct (z <? 0)%Z; exact R.
Qed.
Lemma fmt_n_value esc n : exists ts, value_tokens (VInt (Z.of_N n)) ts /\ reads_as esc (fmt_n n) ts.
Proof.
  destruct (fmt_z_value esc (Z.of_N n)) as (ts & H1 & H2). exists ts. split; [exact H1|].
  unfold fmt_z in H2. destruct (Z.ltb_spec (Z.of_N n) 0); [lia|]. replace (Z.abs_N (Z.of_N n)) with n in H2 by lia. exact H2.
Qed.
Lemma logged_int_text k n z (u : bool) esc : 1 <= k -> logged_int u k n z ->
  exists ts, value_tokens (VInt z) ts /\ reads_as esc (if u then fmt_n n else fmt_z (to_signed k (to_unsigned k (to_signed k n)))) ts.
Proof.
  intros Hk [-> Hn|z' -> Hn T]; [apply fmt_n_value|].
  rewrite to_signed_unsigned; [|exact Hk|apply (to_signed_twos k n Hk Hn)].
  assert (Hk' : (1 <= Z.of_N k)%Z) by lia. rewrite (twos_unique _ _ _ _ Hk' (to_signed_twos k n Hk Hn) T). apply fmt_z_value.
Qed.

Lemma digits_small k n j : n < 10 ^ N.of_nat j -> digits (k + j) n = repeat (n2b 48) k ++ digits j n.
Proof.
  intros H. rewrite digits_app, N.div_small by exact H. f_equal. clear.
  induction k as [|k IH]; [reflexivity|]. cbn [digits]. change (0 / 10) with 0. rewrite IH.
  change (n2b (48 + 0 mod 10)) with (n2b 48). clear. induction k; [reflexivity|]. cbn. f_equal. exact IHk.
Qed.
Lemma fmt_pad_digits k n : n < 10 ^ N.of_nat (S k) -> fmt_pad (S k) n = digits (S k) n.
Proof.
  intros H. unfold fmt_pad. destruct (fmt_n_numeral n) as (j & -> & Hj & Hl). rewrite digits_length.
  assert (L : (S j <= S k)%nat).
  { destruct Hl as [->|Hl]; [lia|]. destruct (Nat.le_gt_cases (S j) (S k)); [assumption|].
    assert (10 ^ N.of_nat (S k) <= 10 ^ N.of_nat j) by (apply N.pow_le_mono_r; lia). lia. }
  rewrite <- (digits_small (S k - S j) n (S j)) by exact Hj. f_equal. lia.
Qed.

(** ** Quoted texts *)
Lemma doubled_id bs : ~ In quote bs -> doubled bs = bs.
Proof.
  induction bs as [|b bs IH]; intros H; [reflexivity|]. cbn [doubled flat_map].
  rewrite byte_eqb_neq by (intros ->; apply H; left; reflexivity). cbn [app]. f_equal. apply IH. intros K. apply H; right; exact K.
Qed.
Lemma reads_text esc bs : (esc = true -> kept_escapes bs) -> reads_as esc (str "'" ++ doubled bs ++ str "'") [TkText bs].
Proof.
  intros H rest Hr. rewrite <- !app_assoc. rewrite lex_text; [|exact H|apply delimited_noquote; exact Hr]. destruct (lex esc rest); reflexivity.
Qed.
Lemma reads_plain esc bs : (forall b, In b bs -> b <> quote /\ b <> backslash) -> reads_as esc (str "'" ++ bs ++ str "'") [TkText bs].
Proof.
  intros H. rewrite <- (doubled_id bs) at 1 by (intros K; apply H in K; apply (proj1 K); reflexivity).
  apply reads_text. intros _. apply no_backslash_kept. intros K. apply H in K. apply (proj2 K). reflexivity.
Qed.
Lemma lit_string_plain esc bs : plain_text esc bs -> lit_string bs = Ok (doubled bs).
Proof.
  intros (Hu & _ & Hq). unfold lit_string. fold quote.
  destruct (existsb (fun b => Byte.eqb b quote) bs) eqn:E; cbn [negb].
  - destruct Hq as [Hq|Hq].
    + exfalso. apply existsb_exists in E as (b & Hb & E). apply byte_eqb_eq in E. subst b. contradiction.
    + f_equal. clear - Hq. induction Hq as [|b bs Hb _ IH]; [reflexivity|]. cbn [doubled flat_map]. fold (doubled bs).
      rewrite IH. destruct (Byte.eqb b quote); [reflexivity|]. unfold push_char. change 0x80 with 128.
      destruct (N.ltb_spec (b2n b) 128); [reflexivity|lia].
  - rewrite Hu. f_equal. symmetry. apply doubled_id. intros H. apply not_true_iff_false in E. apply E.
    apply existsb_exists. exists quote. split; [exact H|apply byte_eqb_refl].
Qed.

(** bytes of times and dates *)
Lemma plain_val b : b2n b <> 39 -> b2n b <> 92 -> b <> quote /\ b <> backslash.
Proof. intros H1 H2. split; intros ->; [apply H1|apply H2]; reflexivity. Qed.
Definition timebyte (b : byte) : Prop := 32 <= b2n b <= 58 /\ b2n b <> 39.
Lemma timebyte_plain b : timebyte b -> b <> quote /\ b <> backslash.
Proof. intros [H K]. apply plain_val; lia. Qed.
Lemma digits_timebytes k n : Forall timebyte (digits k n).
Proof. apply Forall_forall. intros b H. apply digits_in in H. split; lia. Qed.
Lemma reads_timebytes esc s : Forall timebyte s -> reads_as esc (str "'" ++ s ++ str "'") [TkText s].
Proof. intros H. apply reads_plain. intros b K. apply timebyte_plain. rewrite Forall_forall in H. exact (H b K). Qed.
Ltac timebytes := repeat first [apply digits_timebytes | apply Forall_nil
  | match goal with |- Forall _ (_ ++ _) => apply Forall_app; split end
  | constructor; [split; [split|]; discriminate|]].

(** ** Hexadecimal literals *)
Lemma hex_digit_val n : n < 16 -> hex_val (hex_digit n) = Some n.
Proof.
  intros H. destruct n as [|p]; [reflexivity|].
  assert (K : In (N.pos p) (map N.of_nat (seq 0 16))) by (apply in_map_iff; exists (N.to_nat (N.pos p)); split; [lia|apply in_seq; lia]).
  cbn in K. repeat (destruct K as [K|K]; [rewrite <- K; reflexivity|]). contradiction.
Qed.
Lemma hex_digit_quote n : n < 16 -> Byte.eqb (hex_digit n) quote = false.
Proof. intros H. pose proof (hex_digit_val n H) as V. apply byte_eqb_neq. intros E. rewrite E in V. discriminate. Qed.
Lemma scan_hex_encode bs rest : scan_hex (hex_encode bs ++ quote :: rest) = Some (bs, rest).
Proof.
  induction bs as [|b bs IH]; [reflexivity|]. cbn [hex_encode flat_map app]. fold (hex_encode bs).
  pose proof (b2n_lt b) as B. assert (H1 : b2n b / 16 < 16) by lia. assert (H2 : b2n b mod 16 < 16) by lia.
  cbn [scan_hex]. rewrite hex_digit_quote, !hex_digit_val, IH by assumption.
  do 2 f_equal. f_equal. replace (16 * (b2n b / 16) + b2n b mod 16) with (b2n b) by lia. apply n2b_b2n.
Qed.
Lemma reads_hex esc bs : reads_as esc (lit_blob bs) [TkHex bs].
Proof.
  intros rest _. unfold lit_blob. rewrite <- !app_assoc. cbn [app].
  rewrite (lex_token esc _ (TkHex bs) rest); [destruct (lex esc rest); reflexivity|reflexivity|].
  unfold token_of. change (Byte.eqb (n2b 120) quote) with false. change (Byte.eqb (n2b 120) backtick) with false.
  change (is_dig (n2b 120) || is_let (n2b 120)) with true. cbv iota. change (n2b 39) with quote.
  change (n2b 120 :: quote :: hex_encode bs ++ quote :: rest) with ([n2b 120] ++ (quote :: hex_encode bs ++ quote :: rest)).
  rewrite span_all by reflexivity. change (forallb is_dig [n2b 120]) with false.
  change (beqb [n2b 120] (str "x") || beqb [n2b 120] (str "X")) with true. cbv iota.
  rewrite byte_eqb_refl, scan_hex_encode. reflexivity.
Qed.


(** ** Literals of logged values *)
Lemma reads_null esc : reads_as esc (str "null") [TkWord (str "null")].
Proof.
  intros rest Hr. rewrite lex_word; [destruct (lex esc rest); reflexivity|discriminate|reflexivity|discriminate|discriminate|].
  apply delimited_ends; exact Hr.
Qed.
Lemma month_len_days y m : 1 <= m <= 12 -> month_len y m = month_days y m.
Proof.
  intros H. assert (E : leap y = is_leap y) by (unfold leap, is_leap; apply orb_comm).
  assert (K : In m (upto 12)) by (apply upto_in; lia). cbn in K.
  repeat (destruct K as [K|K]; [rewrite <- K; unfold month_len, month_days; try rewrite E; reflexivity|]). contradiction.
Qed.
Lemma from_ymd_ok y m d : calendar_date y m d -> from_ymd y m d = Ok (mk_nd y m d).
Proof.
  intros (Hy & Hm & Hd). unfold from_ymd, valid_date. rewrite month_len_days by exact Hm.
  destruct (N.leb_spec 1 m); [|lia]. destruct (N.leb_spec m 12); [|lia]. destruct (N.leb_spec 1 d); [|lia].
  destruct (N.leb_spec d (month_days y m)); [|lia]. reflexivity.
Qed.
Lemma calendar_small y m d : calendar_date y m d -> y < 2 ^ 16 /\ m < 2 ^ 8 /\ d < 2 ^ 8 /\ y < 10 ^ 4 /\ m < 10 ^ 2 /\ d < 10 ^ 2.
Proof.
  intros (Hy & Hm & Hd). pose proof (month_days_31 y m). change (2 ^ 16) with 65536. change (2 ^ 8) with 256.
  change (10 ^ 4) with 10000. change (10 ^ 2) with 100. lia.
Qed.
Lemma fmt_pad_4 n : n < 10 ^ 4 -> fmt_pad 4 n = digits 4 n. Proof. exact (fmt_pad_digits 3 n). Qed.
Lemma fmt_pad_2 n : n < 10 ^ 2 -> fmt_pad 2 n = digits 2 n. Proof. exact (fmt_pad_digits 1 n). Qed.
Lemma fmt_pad_6 n : n < 10 ^ 6 -> fmt_pad 6 n = digits 6 n. Proof. exact (fmt_pad_digits 5 n). Qed.
Lemma time_small n : n < 60 -> n < 2 ^ 8 /\ n < 10 ^ 2.
Proof. change (2 ^ 8) with 256. change (10 ^ 2) with 100. lia. Qed.
Lemma datetime_literal esc t : calendar_date (dt_year t) (dt_month t) (dt_day t) ->
  dt_hour t < 24 -> dt_minute t < 60 -> dt_second t < 60 -> dt_micro t = 0 ->
  fmt_datetime (mk_dt (trunc 16 (dt_year t)) (trunc 8 (dt_month t)) (trunc 8 (dt_day t))
                      (trunc 8 (dt_hour t)) (trunc 8 (dt_minute t)) (trunc 8 (dt_second t)) 0) = text_datetime t /\
  reads_as esc (str "'" ++ text_datetime t ++ str "'") [TkText (text_datetime t)].
Proof.
  intros Hc Hh Hm Hs Hu. destruct (calendar_small _ _ _ Hc) as (H1 & H2 & H3 & H4 & H5 & H6).
  assert (Hh' : dt_hour t < 60) by lia. destruct (time_small _ Hh') as [T1 T2]. destruct (time_small _ Hm) as [T3 T4].
  destruct (time_small _ Hs) as [T5 T6]. split.
  - unfold fmt_datetime, text_datetime, text_date, text_fraction. cbn [dt_year dt_month dt_day dt_hour dt_minute dt_second dt_micro].
    unfold trunc. rewrite !N.mod_small by assumption. rewrite Hu, fmt_pad_4, !fmt_pad_2 by assumption.
    change (0 =? 0) with true. cbv iota. rewrite app_nil_r, <- !app_assoc. reflexivity.
  - apply reads_timebytes. unfold text_datetime, text_date, text_fraction. rewrite Hu. change (0 =? 0) with true. cbv iota. timebytes.
Qed.
Lemma time_literal esc t : stored_time 6 t -> exists s, lit_time t = Ok s /\
  s = text_time (if t_micro t =? 0 then 0 else 6) t /\ reads_as esc (str "'" ++ s ++ str "'") [TkText s].
Proof.
  intros (_ & Hh & HH & Hm & Hs & Hu & _ & _). destruct (time_small _ Hm) as [_ T1]. destruct (time_small _ Hs) as [_ T2].
  eexists. split; [|split; [reflexivity|]].
  - unfold lit_time. set (h := hours_of t) in *. assert (Eh : h = t_days t * 24 + t_hour t) by reflexivity. clearbody h.
    assert (E1 : to_signed 32 (trunc 32 (t_days t)) = Z.of_N (t_days t)).
    { unfold to_signed, trunc. change (2 ^ (32 - 1)) with 2147483648. change (2 ^ 32) with 4294967296.
      rewrite N.mod_small by lia. destruct (N.ltb_spec (t_days t) 2147483648); [reflexivity|lia]. }
    rewrite E1. replace (Z.of_N (t_days t) * 24 + Z.of_N (t_hour t))%Z with (Z.of_N h) by lia.
    change (2 ^ 31)%Z with 2147483648%Z.
    destruct (Z.ltb_spec (Z.of_N (t_days t) * 24) (- (2147483648))); [lia|].
    destruct (Z.leb_spec 2147483648 (Z.of_N (t_days t) * 24)); [lia|]. destruct (Z.leb_spec 2147483648 (Z.of_N h)); [lia|].
    cbn [orb]. unfold text_time. fold (hours_of t). change (hours_of t) with (t_days t * 24 + t_hour t). rewrite <- Eh.
    assert (Ehh : (if (100 <=? Z.of_N h)%Z then fmt_z (Z.of_N h) else fmt_padz 2 (Z.of_N h)) = digits (if h <? 100 then 2 else 3) h).
    { destruct (Z.leb_spec 100 (Z.of_N h)); destruct (N.ltb_spec h 100); try lia.
      - unfold fmt_z. destruct (Z.ltb_spec (Z.of_N h) 0); [lia|]. replace (Z.abs_N (Z.of_N h)) with h by lia.
        apply (numeral_unique h); [apply fmt_n_numeral|]. exists 2%nat. split; [reflexivity|].
        change (10 ^ N.of_nat 3) with 1000. change (10 ^ N.of_nat 2) with 100. lia.
      - unfold fmt_padz. destruct (Z.ltb_spec (Z.of_N h) 0); [lia|]. replace (Z.abs_N (Z.of_N h)) with h by lia.
        apply fmt_pad_2. change (10 ^ 2) with 100. lia. }
    cbv zeta. rewrite Ehh, !fmt_pad_2 by assumption.
    unfold fmt_micro. destruct (t_micro t =? 0) eqn:E; [reflexivity|]. cbn [N.eqb].
    rewrite fmt_pad_6 by exact Hu. change (10 ^ (6 - 6)) with 1. rewrite N.div_1_r. reflexivity.
  - apply reads_timebytes. unfold text_time. destruct (t_neg t); destruct (t_micro t =? 0); cbn [N.eqb]; timebytes.
Qed.

Lemma sext24_text esc n z : n < 2 ^ 24 -> twos 24 n z ->
  sv_of_binlog (LInt24 n) false = Ok (new_int z) /\ exists ts, value_tokens (VInt z) ts /\ reads_as esc (fmt_z (to_signed 32 (to_unsigned 32 z))) ts.
Proof.
  intros Hn T. assert (E : sext24 n = z) by (eapply (twos_unique 24); [lia|apply sext24_twos; exact Hn|exact T]).
  split.
  - cbn [sv_of_binlog]. rewrite <- E. unfold sext24. change 0x800000 with (2 ^ 23).
    rewrite (top_bit n 23 Hn), (land_pow2_zero n 23 Hn).
    destruct (N.leb_spec (2 ^ 23) n), (N.ltb_spec n (2 ^ 23)); try reflexivity; exfalso; clear - H H0; lia.
  - rewrite to_signed_unsigned; [apply fmt_z_value|lia|]. destruct T as [T _]. cbn in T |- *. lia.
Qed.

(** BIT: the low byte first *)
Lemma bit_loop bs : forall i n, (i + length bs <= 8)%nat -> n < 2 ^ (8 * N.of_nat i) ->
  lit_bit_loop bs (N.of_nat i) n = Ok (n + le_val bs * 2 ^ (8 * N.of_nat i)).
Proof.
  induction bs as [|b bs IH]; intros i n Hi Hn; cbn [lit_bit_loop le_val].
  - f_equal. lia.
  - cbn [length] in Hi. rewrite N.shiftl_mul_pow2. change (2 ^ 3) with 8. destruct (N.leb_spec 64 (N.of_nat i * 8)); [lia|].
    pose proof (b2n_lt b) as Hb. rewrite N.shiftl_mul_pow2, (N.mul_comm (N.of_nat i) 8).
    assert (P : 2 ^ (8 * N.of_nat (S i)) = 256 * 2 ^ (8 * N.of_nat i))
      by (replace (8 * N.of_nat (S i)) with (8 + 8 * N.of_nat i) by lia; rewrite N.pow_add_r; reflexivity).
    assert (L : 2 ^ (8 * N.of_nat (S i)) <= 2 ^ 64) by (apply N.pow_le_mono_r; lia).
    assert (P0 : 2 ^ (8 * N.of_nat i) <> 0) by (apply N.pow_nonzero; discriminate).
    set (p := 2 ^ (8 * N.of_nat i)) in *. set (q := 2 ^ 64) in *. set (r := 2 ^ (8 * N.of_nat (S i))) in *.
    assert (B1 : b2n b * p <= 255 * p) by (apply N.mul_le_mono_r; lia).
    assert (B2 : n + b2n b * p < r) by lia. unfold trunc, cadd. fold q. rewrite N.mod_small by lia.
    destruct (N.leb_spec q (n + b2n b * p)); [lia|]. cbn [rbind].
    replace (N.of_nat i + 1) with (N.of_nat (S i)) by lia. rewrite IH by (fold r; lia || assumption).
    fold r. rewrite P. f_equal. unfold b2n. ring.
Qed.

Theorem literal_reads fmt_f32 fmt_f64 esc (u : bool) v x : logged fmt_f32 fmt_f64 u v x -> expressible esc v ->
  exists sv s ts, sv_of_binlog v u = Ok sv /\ param_text fmt_f32 fmt_f64 sv = Ok s /\ value_tokens x ts /\ reads_as esc s ts.
Proof.
  intros L X. destruct L; cbn [expressible] in X.
  - (* null *) eexists _, _, [TkWord (str "null")]. split; [reflexivity|]. split; [reflexivity|]. split; [left; reflexivity|apply reads_null].
  - destruct (logged_int_text 8 n z u esc ltac:(lia) H) as (ts & V & R). eexists _, _, ts. split; [reflexivity|].
    split; [|split; [exact V|exact R]]. destruct u; reflexivity.
  - destruct (logged_int_text 16 n z u esc ltac:(lia) H) as (ts & V & R). eexists _, _, ts. split; [reflexivity|].
    split; [|split; [exact V|exact R]]. destruct u; reflexivity.
  - destruct H as [-> Hn|z -> Hn T].
    + destruct (fmt_n_value esc n) as (ts & V & R). eexists _, _, ts. split; [reflexivity|]. split; [reflexivity|]. split; [exact V|exact R].
    + destruct (sext24_text esc n z Hn T) as (E & ts & V & R). eexists _, _, ts. split; [exact E|]. split; [reflexivity|]. split; [exact V|exact R].
  - destruct (logged_int_text 32 n z u esc ltac:(lia) H) as (ts & V & R). eexists _, _, ts. split; [reflexivity|].
    split; [|split; [exact V|exact R]]. destruct u; reflexivity.
  - destruct (logged_int_text 64 n z u esc ltac:(lia) H) as (ts & V & R). eexists _, _, ts. split; [reflexivity|].
    split; [|split; [exact V|exact R]]. destruct u; reflexivity.
  - (* float *) eexists _, _, _. split; [reflexivity|]. split; [cbn; rewrite H; reflexivity|]. split; [reflexivity|].
    apply reads_signed. exact H0.
  - eexists _, _, _. split; [reflexivity|]. split; [cbn; rewrite H; reflexivity|]. split; [reflexivity|].
    apply reads_signed. exact H0.
  - (* decimal *)
    destruct (decimal_print intg frac neg i f [] H H0) as (d' & s' & R & P & _ & I). rewrite app_nil_r in R.
    rewrite R in H2. injection H2 as ->. apply I in H1. destruct H1 as (si & Ni & Es'). destruct H3 as (si' & Ni' & Es).
    rewrite (numeral_unique _ _ _ Ni' Ni) in Es. cbn [app] in Es.
    assert (E' : s' = (if neg then [n2b 45] else []) ++ s) by (rewrite Es', Es; reflexivity).
    assert (Nt : number_text s).
    { destruct Ni as (k & -> & _). subst s. exists (digits (S k) i), (digits (N.to_nat frac) f).
      split; [destruct (digits_cons k i) as (b & r & -> & _); discriminate|].
      split; [rewrite forallb_app, !digits_dig; reflexivity|]. destruct (frac =? 0); [left; apply app_nil_r|right; reflexivity]. }
    eexists _, _, _. split; [cbn [sv_of_binlog]; unfold new_mydecimal; rewrite P; reflexivity|].
    split; [|split; [reflexivity|apply reads_signed; exact Nt]].
    unfold param_text, to_sql_literal. cbn [sv_val]. rewrite utf8_ascii.
    + cbn [rmap rbind fst snd]. rewrite E'. reflexivity.
    + intros b Hb. rewrite E' in Hb. apply in_app_iff in Hb as [Hb|Hb].
      * destruct neg; [|contradiction]. destruct Hb as [<-|[]]. reflexivity.
      * destruct Nt as (a & f' & _ & Hd & Hs). rewrite forallb_forall in Hd.
        assert (K : In b (a ++ f') \/ b = n2b 46).
        { destruct Hs as [->| ->]; [left; apply in_app_iff; left; exact Hb|]. apply in_app_iff in Hb as [Hb|[Hb|Hb]];
            [left; apply in_app_iff; left; exact Hb|right; symmetry; exact Hb|left; apply in_app_iff; right; exact Hb]. }
        destruct K as [K| ->]; [|reflexivity]. apply Hd in K. unfold is_dig in K. rewrite andb_true_iff, !N.leb_le in K. lia.
  - (* timestamp *)
    destruct (datetime_literal esc t H H1 H2 H3 H4) as (E & R). eexists _, _, _. split; [reflexivity|].
    split; [|split; [reflexivity|exact R]]. rewrite timestamp_civil by assumption. unfold param_text, to_sql_literal, new_timestamp.
    cbn [sv_val rmap rbind fst snd ndt_date ndt_time nd_year nd_month nd_day nt_hour nt_minute nt_second]. rewrite E. reflexivity.
  - (* date *)
    destruct (calendar_small _ _ _ X) as (H1 & H2 & H3 & H4 & H5 & H6). eexists _, _, _.
    split; [cbn [sv_of_binlog]; rewrite from_ymd_ok by exact X; reflexivity|].
    split; [|split; [reflexivity|apply reads_timebytes; unfold text_date; timebytes]].
    unfold param_text, to_sql_literal, new_date. cbn [sv_val rmap rbind fst snd nd_year nd_month nd_day].
    unfold trunc. rewrite !N.mod_small, fmt_pad_4, !fmt_pad_2 by assumption. reflexivity.
  - (* time *)
    destruct (time_literal esc t X) as (s & E & Es & R). eexists _, _, _. split; [reflexivity|].
    split; [unfold param_text, to_sql_literal; cbn [sv_val new_mytime]; rewrite E; reflexivity|].
    split; [|exact R]. cbn. rewrite Es. reflexivity.
  - (* datetime *)
    destruct X as (X1 & X2 & X3 & X4 & X5). destruct (datetime_literal esc t X1 X2 X3 X4 X5) as (E & R). eexists _, _, _.
    split; [cbn [sv_of_binlog]; rewrite from_ymd_ok by exact X1; cbn [rbind]; unfold and_hms_micro, valid_hms;
      rewrite (proj2 (N.ltb_lt _ _) X2), (proj2 (N.ltb_lt _ _) X3), (proj2 (N.ltb_lt _ _) X4), X5; reflexivity|].
    split; [|split; [reflexivity|exact R]]. unfold param_text, to_sql_literal, new_timestamp.
    cbn [sv_val rmap rbind fst snd ndt_date ndt_time nd_year nd_month nd_day nt_hour nt_minute nt_second]. rewrite E. reflexivity.
  - (* year *) destruct (fmt_n_value esc n) as (ts & V & R). eexists _, _, ts. split; [reflexivity|]. split; [reflexivity|]. split; [exact V|exact R].
  - (* bit *)
    destruct X as [Hl Hr]. assert (Ev : be_val bs = le_val bs) by (unfold be_val; rewrite Hr; reflexivity).
    destruct (fmt_n_value esc (be_val bs)) as (ts & V & R). eexists _, _, ts. split; [reflexivity|].
    split; [|split; [exact V|exact R]]. unfold param_text, to_sql_literal, new_bit. cbn [sv_val].
    change 0 with (N.of_nat 0) at 1. rewrite bit_loop; [|exact Hl|reflexivity]. cbn [rmap rbind fst snd].
    change (2 ^ (8 * N.of_nat 0)) with 1. rewrite N.mul_1_r, N.add_0_l, Ev. reflexivity.
  - (* enum *)
    destruct (fmt_n_value esc n) as (ts & V & R).
    assert (E : enum_to_u64 e = n) by (repeat (destruct H as [<-|H]; [reflexivity|]); contradiction).
    eexists _, _, ts. split; [reflexivity|]. split; [unfold param_text; cbn; rewrite E; reflexivity|]. split; [exact V|exact R].
  - eexists _, _, _. split; [reflexivity|].
    split; [unfold param_text, to_sql_literal; cbn [sv_val new_varstring]; rewrite (lit_string_plain esc) by exact X; reflexivity|].
    split; [reflexivity|]. apply reads_text. apply X.
  - eexists _, _, _. split; [reflexivity|].
    split; [unfold param_text, to_sql_literal; cbn [sv_val new_varstring]; rewrite (lit_string_plain esc) by exact X; reflexivity|].
    split; [reflexivity|]. apply reads_text. apply X.
  - eexists _, _, _. split; [reflexivity|]. split; [reflexivity|]. split; [reflexivity|]. apply reads_hex.
Qed.
