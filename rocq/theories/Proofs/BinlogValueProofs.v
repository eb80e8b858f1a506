From Coq Require Import Lia.
From Verif Require Import Model.Base Model.BytesParser Model.Cmd Model.Utf8 Model.Time Model.Decimal Model.Col
  Spec.Nums Spec.Wire Spec.Temporal Spec.DecimalSpec Spec.EventBodies Spec.BinlogValues
  Proofs.BaseLemmas Proofs.BytesParserProofs Proofs.WireLemmas Proofs.TimeProofs Proofs.DecimalProofs Proofs.EventBodyProofs.
Open Scope N_scope.

(** ** decimals: groups to the base 10^9 *)
Lemma number9_snoc l x : number9 (l ++ [x]) = number9 l * 10 ^ 9 + x.
Proof. unfold number9. rewrite fold_left_app. reflexivity. Qed.
Lemma pow9 k : 10 ^ (9 * N.of_nat (S k)) = 10 ^ 9 * 10 ^ (9 * N.of_nat k).
Proof. rewrite <- N.pow_add_r. f_equal. lia. Qed.
Lemma group9_number k : forall n, n < 10 ^ (9 * N.of_nat k) -> number9 (group9 k n) = n.
Proof.
  induction k; intros n H.
  - cbn in *. lia.
  - cbn [group9]. rewrite number9_snoc, IHk.
    + rewrite N.mul_comm. symmetry. apply N.div_mod. discriminate.
    + apply N.div_lt_upper_bound; [discriminate|]. rewrite pow9 in H. exact H.
Qed.
Lemma group9_length k : forall n, length (group9 k n) = k.
Proof. induction k; intros n; [reflexivity|]. cbn [group9]. rewrite app_length, IHk. cbn. lia. Qed.
Lemma group9_small k : forall n, Forall (fun g => g < 10 ^ 9) (group9 k n).
Proof.
  induction k; intros n; [constructor|]. cbn [group9]. apply Forall_app. split; [apply IHk|].
  constructor; [|constructor]. apply N.mod_lt. discriminate.
Qed.
Lemma number9_cons l : forall x, number9 (x :: l) = x * 10 ^ (9 * N.of_nat (length l)) + number9 l.
Proof.
  induction l as [|y l IH] using rev_ind; intros x.
  - cbn. lia.
  - change (x :: l ++ [y]) with ((x :: l) ++ [y]). rewrite !number9_snoc, IH, app_length. cbn [length].
    rewrite Nat.add_1_r, pow9. set (p := 10 ^ (9 * N.of_nat (length l))). clearbody p. change (10 ^ 9) with 1000000000. lia.
Qed.
Lemma number9_inj : forall a b, length a = length b -> Forall (fun g => g < 10 ^ 9) a -> Forall (fun g => g < 10 ^ 9) b ->
  number9 a = number9 b -> a = b.
Proof.
  induction a as [|x a IH] using rev_ind; intros b L Ha Hb E.
  - destruct b; [reflexivity|discriminate].
  - destruct b as [|y b _] using rev_ind; [rewrite app_length in L; cbn in L; lia|].
    rewrite !app_length in L. cbn [length] in L. apply Forall_app in Ha, Hb. destruct Ha as [Ha Hx], Hb as [Hb Hy].
    inversion Hx; inversion Hy; subst. rewrite !number9_snoc in E. change (10 ^ 9) with 1000000000 in *.
    assert (number9 a = number9 b /\ x = y) as [E1 ->] by (clear - E H1 H5; lia).
    f_equal. apply IH; auto. lia.
Qed.
Lemma pow10_pos n : 0 < 10 ^ n.
Proof. apply N.neq_0_lt_0, N.pow_nonzero. discriminate. Qed.
Lemma pow10_le9 n : n <= 9 -> 10 ^ n <= 10 ^ 9.
Proof. intros. apply N.pow_le_mono_r; [discriminate|assumption]. Qed.
Lemma int_groups_facts intg i : intg mod 9 <> 0 -> i < 10 ^ intg ->
  Forall (fun g => g < 10 ^ 9) (int_groups intg i) /\ N.of_nat (length (int_groups intg i)) = (intg + 8) / 9 /\
  number9 (int_groups intg i) = i.
Proof.
  intros Hx Hi. unfold int_groups. rewrite (proj2 (N.eqb_neq _ _) Hx). cbn [app].
  set (k := intg / 9) in *. set (P := 10 ^ (9 * k)).
  assert (HP : 0 < P) by apply pow10_pos.
  assert (Hg : i / P < 10 ^ (intg mod 9)).
  { apply N.div_lt_upper_bound; [lia|]. unfold P. rewrite <- N.pow_add_r.
    replace (9 * k + intg mod 9) with intg by (unfold k; clear; lia). exact Hi. }
  splits.
  - constructor; [|apply group9_small]. eapply N.lt_le_trans; [exact Hg|]. apply pow10_le9. clear; lia.
  - cbn [length]. rewrite group9_length. unfold k. clear - Hx. lia.
  - rewrite number9_cons, group9_length, N2Nat.id. fold P. rewrite group9_number.
    + rewrite N.mul_comm. symmetry. apply N.div_mod. lia.
    + rewrite N2Nat.id. fold P. apply N.mod_lt. lia.
Qed.
Lemma frac_buf_facts frac f : f < 10 ^ frac ->
  Forall (fun g => g < 10 ^ 9) (frac_buf frac f) /\ N.of_nat (length (frac_buf frac f)) = (frac + 8) / 9 /\
  number9 (frac_buf frac f) = f * 10 ^ ((9 - frac mod 9) mod 9).
Proof.
  intros Hf. unfold frac_buf. set (k := frac / 9). set (r := frac mod 9) in *.
  assert (Hr : r < 9) by (unfold r; clear; lia).
  assert (HP : 0 < 10 ^ r) by apply pow10_pos.
  assert (Hg : f / 10 ^ r < 10 ^ (9 * k)).
  { apply N.div_lt_upper_bound; [lia|]. rewrite <- N.pow_add_r.
    replace (r + 9 * k) with frac by (unfold k, r; clear; lia). exact Hf. }
  destruct (N.eqb_spec r 0) as [E|E].
  - rewrite app_nil_r. splits.
    + apply group9_small.
    + rewrite group9_length. unfold k. unfold r in E. clear - E. lia.
    + rewrite group9_number by (rewrite N2Nat.id; exact Hg). rewrite E. cbn [N.pow N.div]. rewrite N.div_1_r.
      change ((9 - 0) mod 9) with 0. rewrite N.pow_0_r. lia.
  - assert (E9 : (9 - r) mod 9 = 9 - r) by (apply N.mod_small; lia). rewrite E9.
    assert (Hs : f mod 10 ^ r * 10 ^ (9 - r) < 10 ^ 9).
    { replace (10 ^ 9) with (10 ^ r * 10 ^ (9 - r)) by (rewrite <- N.pow_add_r; f_equal; lia).
      apply N.mul_lt_mono_pos_r; [apply pow10_pos|]. apply N.mod_lt. lia. }
    splits.
    + apply Forall_app. split; [apply group9_small|]. constructor; [exact Hs|constructor].
    + rewrite app_length, group9_length. cbn [length]. unfold k. unfold r in E. clear - E. lia.
    + rewrite number9_snoc, group9_number by (rewrite N2Nat.id; exact Hg).
      replace (10 ^ 9) with (10 ^ r * 10 ^ (9 - r)) at 1 by (rewrite <- N.pow_add_r; f_equal; lia).
      set (q := 10 ^ (9 - r)). clearbody q. rewrite N.mul_assoc, <- N.mul_add_distr_r. f_equal.
      rewrite N.mul_comm. symmetry. apply N.div_mod. lia.
Qed.
Lemma number9_app a b : number9 (a ++ b) = number9 a * 10 ^ (9 * N.of_nat (length b)) + number9 b.
Proof.
  induction b as [|y b IH] using rev_ind.
  - rewrite app_nil_r. cbn. lia.
  - rewrite app_assoc, !number9_snoc, IH, app_length. cbn [length].
    rewrite Nat.add_1_r, pow9. set (p := 10 ^ (9 * N.of_nat (length b))). clearbody p. change (10 ^ 9) with 1000000000. lia.
Qed.
Lemma decimal_is_read prec scale neg i f d : (prec - scale) mod 9 <> 0 -> i < 10 ^ (prec - scale) -> f < 10 ^ scale ->
  decimal_is d prec scale neg i f -> d = mk_dec (prec - scale) scale neg (int_groups (prec - scale) i ++ frac_buf scale f).
Proof.
  intros Hx Hi Hf (E1 & E2 & E3 & ig & fg & Eb & Hs & L1 & L2 & N1 & N2).
  destruct d as [a b c buf]. cbn [d_intg d_frac d_neg d_buf] in *. subst. apply Forall_app in Hs. destruct Hs as [Hs1 Hs2].
  destruct (int_groups_facts (prec - scale) (number9 ig) Hx Hi) as (F1 & F2 & F3).
  destruct (frac_buf_facts scale f Hf) as (G1 & G2 & G3).
  f_equal. f_equal; apply number9_inj; auto; solve [congruence | apply Nat2N.inj; congruence].
Qed.

(** ** values *)
Lemma pmap_read {A B} (f : A -> B) (p : parser A) a bs rest : p bs = (Ok a, rest) -> pmap f p bs = (Ok (f a), rest).
Proof. intros H. apply (pmap_ok f p); assumption. Qed.
Lemma read_date y m d rest : y <= 9999 -> m <= 12 -> d <= 31 ->
  read_binlog_value MDate (wle 3 (y * 512 + m * 32 + d) ++ rest) = (Ok (LDate y m d), rest).
Proof.
  intros. cbn [read_binlog_value]. eapply eq_trans; [eapply pbind_ok; apply rd_u24; change (2 ^ 24) with 16777216; lia|]. cbv beta zeta.
  unfold pret, trunc. rewrite (land_ones' _ 5 31), (land_ones' _ 4 15) by reflexivity. rewrite !N.shiftr_div_pow2.
  change (2 ^ 5) with 32. change (2 ^ 4) with 16. change (2 ^ 8) with 256. change (2 ^ 9) with 512. change (2 ^ 16) with 65536.
  do 3 f_equal; lia.
Qed.
Lemma value_decodes ty v bs m rest : stored ty v bs -> decodes_well ty v -> type_desc ty = Some m ->
  read_binlog_value m (bs ++ rest) = (Ok v, rest).
Proof.
  intros H W D. destruct H; cbn [type_desc] in D; injection D as <-; cbn [decodes_well] in W.
  - cbn [read_binlog_value]; apply pmap_read; auto with rd.
  - cbn [read_binlog_value]; apply pmap_read; auto with rd.
  - cbn [read_binlog_value]; apply pmap_read; auto with rd.
  - cbn [read_binlog_value]; apply pmap_read; auto with rd.
  - cbn [read_binlog_value]; apply pmap_read; auto with rd.
  - cbn [read_binlog_value]; apply pmap_read; auto with rd.
  - cbn [read_binlog_value]; apply pmap_read; auto with rd.
  - reflexivity.
  - cbn [read_binlog_value]. eapply eq_trans; [eapply pbind_ok; apply rd_u8; change (2 ^ 8) with 256; lia|]. cbv beta.
    destruct (N.eqb_spec (y - 1900) 0); [lia|]. unfold pret. do 3 f_equal. lia.
  - apply read_date; assumption.
  - cbn [read_binlog_value]; apply pmap_read. apply time_decodes; assumption.
  - cbn [read_binlog_value]; apply pmap_read. apply datetime_decodes; assumption.
  - subst dec. cbn [frac_bytes]. rewrite app_nil_r. cbn [read_binlog_value]; apply pmap_read; auto with rd.
  - cbn [read_binlog_value]. lift ltac:(unfold cadd; destruct (N.leb_spec (2 ^ 8) (m0 / 8 + (if 0 <? m0 mod 8 then 1 else 0))) as [L|L];
      [exfalso; change (2 ^ 8) with 256 in L; destruct (0 <? m0 mod 8); lia|reflexivity]).
    apply pmap_read. apply rd_len. unfold blen. rewrite H0. destruct (N.ltb_spec 0 (m0 mod 8)); lia.
  - cbn [read_binlog_value]. destruct (N.ltb_spec prec scale) as [L|L]; [lia|]. apply pmap_read.
    rewrite read_decimal_spec by assumption. do 2 f_equal. symmetry. apply decimal_is_read; assumption.
  - cbn [read_binlog_value]; apply (pmap_read (fun n => LEnum (Pack1 n))); auto with rd.
  - cbn [read_binlog_value]; apply (pmap_read (fun n => LEnum (Pack2 n))); auto with rd.
  - assert (pack = 1 \/ pack = 2 \/ pack = 3 \/ pack = 4) as [-> | [-> | [-> | ->]]] by lia; cbn [read_binlog_value]; rewrite <- app_assoc;
    match goal with |- context [wle (N.to_nat ?p)] => let n := eval vm_compute in (N.to_nat p) in change (N.to_nat p) with n end;
    (eapply eq_trans; [eapply pbind_ok; eauto with rd|]); cbv beta; apply pmap_read; apply rd_len; reflexivity.
  - cbn [read_binlog_value]. rewrite <- app_assoc. destruct (N.ltb_spec max 256) as [L|L].
    + eapply eq_trans; [eapply pbind_ok; apply rd_u8; change (2 ^ 8) with 256; lia|]. cbv beta.
      destruct (N.ltb_spec max (N.of_nat (length s))) as [L'|L']; [lia|]. apply pmap_read, rd_len. reflexivity.
    + eapply eq_trans; [eapply pbind_ok; apply rd_u16; lia|]. cbv beta.
      destruct (N.ltb_spec max (N.of_nat (length s))) as [L'|L']; [lia|]. apply pmap_read, rd_len. reflexivity.
  - cbn [read_binlog_value]. rewrite <- app_assoc. destruct (N.ltb_spec 255 len) as [L|L]; destruct (N.ltb_spec len 256) as [L'|L']; try lia.
    + eapply eq_trans; [eapply pbind_ok; apply rd_u16; change (2 ^ 16) with 65536; change (2 ^ 10) with 1024 in *; lia|]. cbv beta.
      apply pmap_read, rd_len. reflexivity.
    + eapply eq_trans; [eapply pbind_ok; apply rd_u8; change (2 ^ 8) with 256; lia|]. cbv beta.
      apply pmap_read, rd_len. reflexivity.
Qed.

(** findings *)
Lemma timestamp_fraction_left dec secs us rest : dec <= 6 -> secs < 2 ^ 32 ->
  read_binlog_value (MTimestamp dec) ((wbe 4 secs ++ frac_bytes dec us) ++ rest) = (Ok (LTimestamp secs), frac_bytes dec us ++ rest).
Proof. intros. rewrite <- app_assoc. cbn [read_binlog_value]. apply pmap_read. auto with rd. Qed.
Lemma frac_bytes_nil dec us : dec <= 6 -> (frac_bytes dec us = [] <-> dec = 0).
Proof.
  intros H. split; [|intros ->; reflexivity].
  assert (dec = 0 \/ dec = 1 \/ dec = 2 \/ dec = 3 \/ dec = 4 \/ dec = 5 \/ dec = 6) as [-> | [-> | [-> | [-> | [-> | [-> | ->]]]]]] by lia;
  [reflexivity|..]; cbn [frac_bytes]; intros E; apply (f_equal (@length _)) in E; rewrite wbe_length in E; discriminate.
Qed.
Lemma timestamp_desync dec secs us rest : 1 <= dec <= 6 -> secs < 2 ^ 32 ->
  exists left, read_binlog_value (MTimestamp dec) ((wbe 4 secs ++ frac_bytes dec us) ++ rest) = (Ok (LTimestamp secs), left ++ rest) /\ left <> [].
Proof.
  intros H Hs. exists (frac_bytes dec us). split; [apply timestamp_fraction_left; lia|].
  rewrite frac_bytes_nil by lia. lia.
Qed.

(** ** metadata *)
Lemma char_meta len rest : len < 2 ^ 10 ->
  read_column_meta TString ((wle 1 (N.lxor 0xfe (len / 256 * 16)) ++ wle 1 (len mod 256)) ++ rest) = (Ok (MString len), rest).
Proof.
  intros H. change (2 ^ 10) with 1024 in H. rewrite <- app_assoc.
  assert (len / 256 = 0 \/ len / 256 = 1 \/ len / 256 = 2 \/ len / 256 = 3) as C by lia.
  assert (L : len mod 256 < 2 ^ 8) by (change (2 ^ 8) with 256; lia).
  unfold read_column_meta.
  destruct C as [E | [E | [E | E]]]; rewrite E;
  (eapply eq_trans; [eapply pbind_ok; apply rd_u8; reflexivity|]); cbv beta;
  (eapply eq_trans; [eapply pbind_ok; apply rd_u8; exact L|]); cbv beta;
  match goal with |- context [N.lor ?a 240] => let v := eval vm_compute in (N.lor a 240) in change (N.lor a 240) with v end;
  match goal with |- context [N.shiftl ?a 8] => let v := eval vm_compute in (N.shiftl a 8) in change (N.shiftl a 8) with v end;
  unfold pret; do 3 f_equal; rewrite ?N.add_0_l; lia.
Qed.
Lemma meta_decodes ty m rest : sql_type_ok ty -> type_desc ty = Some m ->
  exists ct, column_type_of (b2n (type_code ty)) = Ok ct /\ read_column_meta ct (type_meta ty ++ rest) = (Ok m, rest).
Proof.
  intros H D. destruct ty; cbn [type_desc] in D; try discriminate; injection D as <-; cbn [sql_type_ok] in H; change (2 ^ 10) with 1024 in H;
  (eexists; split; [reflexivity|]); cbn [type_meta]; try reflexivity;
  try (cbn [read_column_meta]; apply pmap_read; (apply rd_u8 || apply rd_u16); consts; lia).
  - cbn [read_column_meta]. rewrite <- app_assoc.
    eapply eq_trans; [eapply pbind_ok; apply rd_u8; consts; lia|]. cbv beta.
    eapply eq_trans; [eapply pbind_ok; apply rd_u8; consts; lia|]. reflexivity.
  - cbn [read_column_meta]. rewrite <- app_assoc.
    eapply eq_trans; [eapply pbind_ok; apply rd_u8; consts; lia|]. cbv beta.
    eapply eq_trans; [eapply pbind_ok; apply rd_u8; consts; lia|]. reflexivity.
  - apply char_meta. exact H.
Qed.
Lemma bget_app a b (l : list byte) : bget (a ++ b :: l) (length a) = Ok b.
Proof. unfold bget. rewrite nth_error_app2, Nat.sub_diag by lia. reflexivity. Qed.
Lemma metas_loop_read tys : forall (pre : bytes) ms suf rest, Forall sql_type_ok tys -> map type_desc tys = map Some ms ->
  read_column_metas_loop (length tys) (length pre) (pre ++ map type_code tys ++ suf) (concat (map type_meta tys) ++ rest) = (Ok ms, rest).
Proof.
  induction tys as [|ty tys IH]; intros pre ms suf rest H D.
  - destruct ms; [reflexivity|discriminate].
  - destruct ms as [|m ms]; [discriminate|]. cbn [map] in D. injection D as D1 D2. inversion H; subst.
    cbn [length read_column_metas_loop map concat app].
    destruct (meta_decodes ty m (concat (map type_meta tys) ++ rest) H2 D1) as (ct & E1 & E2).
    lift ltac:(apply bget_app). lift ltac:(exact E1).
    rewrite <- app_assoc. eapply eq_trans; [eapply pbind_ok; exact E2|]. cbv beta.
    specialize (IH (pre ++ [type_code ty]) ms suf rest H3 D2). rewrite app_length in IH. cbn [length] in IH.
    rewrite Nat.add_1_r, <- app_assoc in IH. cbn [app] in IH.
    eapply eq_trans; [eapply pbind_ok; exact IH|]. reflexivity.
Qed.
Lemma metas_read tys ms rest : Forall sql_type_ok tys -> map type_desc tys = map Some ms -> N.of_nat (length tys) < 2 ^ 32 ->
  read_column_metas (N.of_nat (length tys)) (map type_code tys) (concat (map type_meta tys) ++ rest) = (Ok ms, rest).
Proof.
  intros H D L. unfold read_column_metas. eapply eq_trans.
  { eapply pbind_ok. apply rd_lift. unfold with_capacity. destruct (N.leb_spec (2 ^ 63) (4 * N.of_nat (length tys))) as [Q|Q]; [exfalso|reflexivity].
    change (2 ^ 32) with 4294967296 in L. change (2 ^ 63) with 9223372036854775808 in Q. lia. }
  rewrite Nat2N.id. pose proof (metas_loop_read tys [] ms [] rest H D) as R. cbn [length app] in R. rewrite app_nil_r in R. exact R.
Qed.
(** SET and JSON columns *)
Lemma set_meta pack rest : read_column_meta TString (type_meta (SSet pack) ++ rest) = (Panic PUnimplemented, rest).
Proof. reflexivity. Qed.
