(** * Which stored values, row images and row events a release build accepts: proofs *)
From Coq Require Import Lia ZArith.
From Verif Require Import Model.Base Model.BytesParser Model.LenEnc Model.Utf8 Model.Time Model.Decimal Model.Bitmap
  Model.Col Model.Cmd Model.Row Model.Event Model.EventBody Model.Rows Model.Release
  Spec.Nums Spec.LenEncSpec Spec.Wire Spec.BitmapSpec Spec.DecimalSpec Spec.Accepts Spec.AcceptsEvents Spec.AcceptsRowEvents Spec.EventBodies Spec.BinlogValues
  Spec.ReleaseSpec Spec.ReleaseAccepts Spec.ReleaseValues
  Proofs.PanicProofs Proofs.BaseLemmas Proofs.BytesParserProofs Proofs.LenEncProofs Proofs.WireLemmas Proofs.TimeProofs Proofs.DecimalProofs
  Proofs.AcceptsProofs Proofs.AcceptsPackets Proofs.AcceptsRows Proofs.AcceptsEvents Proofs.AcceptsBodies Proofs.AcceptsValues Proofs.BitmapProofs Proofs.RowsProofs
  Proofs.AcceptsImages Proofs.ReleaseProofs Proofs.ReleaseAccepts.
Open Scope N_scope.

(** ** TIME: the same *)
Lemma time_rel_same dec bs : time_from_binlog_rel dec bs = time_from_binlog dec bs.
Proof.
  destruct (time_from_binlog_rel_ok dec bs) as [[X|X]|X]; [| |exact X]; destruct (np_time_binlog dec bs) as [(a & E)|(e & E)]; congruence.
Qed.
Lemma accepts_time_rel dec : takes_exactly (time_from_binlog_rel dec) (time_layout dec).
Proof. eapply te_ext; [apply time_rel_same|]. apply accepts_time. Qed.
Lemma te_f64_rel : takes_exactly read_le_f64_rel (is_le 8).
Proof.
  intros bs v rest. rewrite <- (te_get_le 8 bs v rest). unfold read_le_f64_rel.
  destruct (Nat.ltb_spec (length bs) 8) as [H|H]; [|reflexivity].
  split; [discriminate|]. intros X. apply te_get_le in X. destruct X as (w & -> & X & _). rewrite app_length in H. lia.
Qed.

(** ** DATETIME *)
Lemma dt_packing_rel n fr neg packed : n < 2 ^ 40 -> fr < 2 ^ 24 -> neg = negb (N.land n 0x8000000000 =? 0x8000000000) ->
  packed = trunc 64 (N.shiftl (wsub 64 n 0x8000000000) 24) + fr ->
  (if neg then neg64_rel packed else packed) = Z.abs_N (packed_p 39 n fr).
Proof.
  intros H F En Ep. destruct (dt_packing n fr neg packed H F En Ep) as [B X]. unfold dt_packed in X.
  assert (O : forall a b : N, Ok a = Ok b -> a = b) by congruence.
  destruct (Z.eqb_spec (packed_p 39 n fr) (- 2 ^ 63)) as [E|E].
  - destruct neg; [|discriminate]. unfold neg64 in X. unfold neg64_rel. rewrite E. destruct (N.eqb_spec packed (2 ^ 63)) as [->|]; [reflexivity|discriminate].
  - apply O. rewrite <- X. destruct neg; [|reflexivity]. unfold neg64 in X |- *. unfold neg64_rel. destruct (packed =? 2 ^ 63); [discriminate|reflexivity].
Qed.
Lemma wadd_ok k a b : a + b < 2 ^ k -> wadd k a b = a + b.
Proof. apply N.mod_small. Qed.
Lemma dt_rel_eq dec bs : datetime_from_binlog_rel dec bs = (n <- read_be_u40 ;; fr <- read_fraction dec ;; dt_rest (Z.abs_N (packed_p 39 n fr))) bs.
Proof.
  change (datetime_from_binlog_rel dec) with (pbind (packed_from_datetime_binary_rel dec) dt_rest). unfold packed_from_datetime_binary_rel. rewrite <- bind_assoc.
  apply bind_cong. intros n r E. assert (H : n < 2 ^ 40). { apply te_be40 in E. destruct E as (w & _ & E). apply be_bound in E. exact E. }
  cbv zeta. rewrite <- bind_assoc.
  assert (K : forall fr, fr < 2 ^ 24 -> wadd 64 (trunc 64 (N.shiftl (wsub 64 n 0x8000000000) 24)) fr = trunc 64 (N.shiftl (wsub 64 n 0x8000000000) 24) + fr).
  { intros fr F. apply wadd_ok. exact (proj1 (dt_packing n fr _ _ H F eq_refl eq_refl)). }
  destruct (fraction_cases dec) as [->|[[->| ->]|[[->| ->]|[[->| ->]|X]]]]; cbn [read_fraction]; unfold pmap; rewrite <- ?bind_assoc.
  2,3: apply bind_cong; intros f r' E'; rewrite !ret_bind; apply te_be8 in E'; destruct E' as (w' & _ & E'); apply be_bound in E'; change (256 ^ N.of_nat 1) with 256 in E';
    rewrite K by (change (2 ^ 24) with 16777216; lia); rewrite (dt_packing_rel n (f * 10000) _ _ H ltac:(change (2 ^ 24) with 16777216; lia) eq_refl eq_refl); reflexivity.
  2,3: apply bind_cong; intros f r' E'; rewrite !ret_bind; apply te_be16 in E'; destruct E' as (w' & _ & E'); apply be_bound in E'; change (256 ^ N.of_nat 2) with 65536 in E';
    rewrite K by (change (2 ^ 24) with 16777216; lia); rewrite (dt_packing_rel n (f * 100) _ _ H ltac:(change (2 ^ 24) with 16777216; lia) eq_refl eq_refl); reflexivity.
  2,3: apply bind_cong; intros f r' E'; rewrite ?ret_bind; apply te_be24 in E'; destruct E' as (w' & _ & E'); apply be_bound in E';
    rewrite K by exact E'; rewrite (dt_packing_rel n f _ _ H E' eq_refl eq_refl); reflexivity.
  - rewrite !ret_bind. rewrite (dt_packing_rel n 0 _ (trunc 64 (N.shiftl (wsub 64 n 0x8000000000) 24)) H ltac:(lia) eq_refl (eq_sym (N.add_0_r _))). reflexivity.
  - rewrite read_fraction_none by exact X. destruct dec as [|q]; [lia|]. repeat (destruct q as [q|q|]; try reflexivity; try lia).
Qed.
Lemma unpack_dt_iff_le m t : m <= 2 ^ 63 -> (t = unpack_dt m <->
    m = (((dt_year t * 13 + dt_month t) * 2 ^ 5 + dt_day t) * 2 ^ 17 + dt_hour t * 2 ^ 12 + dt_minute t * 2 ^ 6 + dt_second t) * 2 ^ 24 + dt_micro t /\
    dt_month t < 13 /\ dt_day t < 2 ^ 5 /\ dt_hour t < 2 ^ 5 /\ dt_minute t < 2 ^ 6 /\ dt_second t < 2 ^ 6 /\ dt_micro t < 2 ^ 24).
Proof.
  intros L. unfold unpack_dt, trunc. cbv zeta. change 0xffffffffff with (N.ones 40). change 0xffffff with (N.ones 24). rewrite !N.land_ones, !N.shiftr_div_pow2.
  change (N.shiftl 1 17) with 131072. change (N.shiftl 1 5) with 32. change (N.shiftl 1 6) with 64.
  change (2 ^ 63) with 9223372036854775808 in L.
  change (2 ^ 24) with 16777216. change (2 ^ 12) with 4096. change (2 ^ 6) with 64. change (2 ^ 5) with 32. change (2 ^ 17) with 131072. change (2 ^ 8) with 256. change (2 ^ 16) with 65536. change (2 ^ 40) with 1099511627776.
  rewrite (N.mod_small (m / 16777216)) by lia.
  remember (m / 16777216) as q eqn:Eq. remember (m mod 16777216) as us' eqn:Eu.
  assert (M : m = q * 16777216 + us' /\ us' < 16777216 /\ q <= 549755813888) by lia. clear Eq Eu. destruct M as (M & U & Q).
  remember (q / 131072) as ymd eqn:E1. remember (q mod 131072) as hms eqn:E2.
  assert (M1 : q = ymd * 131072 + hms /\ hms < 131072 /\ ymd <= 4194304) by lia. clear E1 E2. destruct M1 as (M1 & Hh & Hy).
  remember (ymd / 32) as ym eqn:E1. remember (ymd mod 32) as dy eqn:E2.
  assert (M2 : ymd = ym * 32 + dy /\ dy < 32 /\ ym <= 131072) by lia. clear E1 E2. destruct M2 as (M2 & Hd & Hym).
  destruct t as [y mo d h mi s us]; cbn [dt_year dt_month dt_day dt_hour dt_minute dt_second dt_micro]. split.
  - intros [= -> -> -> -> -> -> ->].
    rewrite (N.mod_small (ym / 13)), (N.mod_small (ym mod 13)), (N.mod_small dy), (N.mod_small (hms / 4096)), (N.mod_small (hms / 64 mod 64)), (N.mod_small (hms mod 64)) by lia.
    repeat split; lia.
  - intros (E & H1 & H2 & H3 & H4 & H5 & H6).
    assert (us = us' /\ q = ((y * 13 + mo) * 32 + d) * 131072 + h * 4096 + mi * 64 + s) as [-> Eq] by lia.
    assert (hms = h * 4096 + mi * 64 + s /\ ymd = (y * 13 + mo) * 32 + d) as [-> Ey] by lia.
    assert (dy = d /\ ym = y * 13 + mo) as [-> Em] by lia.
    assert (ym / 13 = y /\ ym mod 13 = mo) as [-> ->] by lia.
    assert (A : (h * 4096 + mi * 64 + s) / 4096 = h) by lia. assert (B : (h * 4096 + mi * 64 + s) / 64 = h * 64 + mi) by lia.
    assert (C : (h * 4096 + mi * 64 + s) mod 64 = s) by lia. rewrite A, B, C.
    assert (D : (h * 64 + mi) mod 64 = mi) by lia. rewrite D.
    f_equal; symmetry; apply N.mod_small; lia.
Qed.
Lemma accepts_datetime_rel dec : takes_exactly (datetime_from_binlog_rel dec) (release_datetime_layout dec).
Proof.
  eapply te_ext; [apply dt_rel_eq|].
  assert (BB : forall n fr w1 w2, is_be 5 n w1 -> fraction_layout dec fr w2 -> Z.abs_N (packed_p 39 n fr) <= 2 ^ 63).
  { intros n fr w1 w2 F1 X. apply be_bound in F1. apply fraction_bound in X. unfold packed_p.
    change (- 2 ^ 63)%Z with (-9223372036854775808)%Z. change (2 ^ 39)%Z with 549755813888%Z. change (2 ^ 24)%Z with 16777216%Z. change (2 ^ 63) with 9223372036854775808. change (2 ^ 24) with 16777216 in X. change (256 ^ N.of_nat 5) with 1099511627776 in F1. lia. }
  eapply te_bind with (F := fun n t w => exists fr, fraction_layout dec fr w /\ t = unpack_dt (Z.abs_N (packed_p 39 n fr))); [apply te_be40| |].
  - intros n w0 _. eapply te_bind with (F := fun fr t w => w = [] /\ t = unpack_dt (Z.abs_N (packed_p 39 n fr))); [apply te_fraction| |].
    + intros fr w1 _. apply te_ret. tauto.
    + intros t w. split.
      * intros (fr & X). exists fr, w, []. rewrite app_nil_r. tauto.
      * intros (fr & w1 & w2 & -> & X & -> & Y). rewrite app_nil_r. eauto.
  - intros t w. unfold release_datetime_layout, packed_layout. change (2 ^ (8 * Z.of_nat 5 - 1))%Z with (2 ^ 39)%Z. split.
    + intros (p & (width & unit & n & f & E & F & ->) & T). apply fields_cons_inv in F. destruct F as (w1 & w2 & -> & F1 & F2). rewrite fields_one in F2.
      assert (X : fraction_layout dec (f * unit) w2) by (exists width, unit, f; auto).
      exists n, w1, w2. split; [reflexivity|]. split; [exact F1|]. exists (f * unit). split; [exact X|].
      apply unpack_dt_iff_le; [exact (BB _ _ _ _ F1 X)|exact T].
    + intros (n & w1 & w2 & -> & F1 & fr & X & T). pose proof (BB _ _ _ _ F1 X) as B. destruct X as (width & unit & f & E & F2 & ->).
      apply unpack_dt_iff_le in T; [|exact B]. exists (packed_p 39 n (f * unit)). split; [|exact T]. exists width, unit, n, f. split; [exact E|]. split; [|reflexivity].
      constructor; [exact F1|apply fields_one; exact F2].
Qed.

(** ** DECIMAL *)
Definition release_scale_last (x : N) (gs : list N) : list N := if x =? 0 then gs else removelast gs ++ [(last gs 0 * 10 ^ (9 - x)) mod 2 ^ 32].
Lemma te_last_group_rel x l neg : x < 9 -> tget DIG_TO_BYTES x = Ok l ->
  takes_exactly (if 0 <? x then f <- read_extra_fragment false l neg ;; p <- plift (tget POWERS_10 (DIG_PER_DEC1 - x)) ;; pret [wmul 32 f p] else pret [])
  (fun hs w => exists gs, hs = release_scale_last x gs /\ Forall2 fits (part_widths x) gs /\ w = cpls neg (part_widths x) gs).
Proof.
  intros H L. unfold part_widths, release_scale_last. destruct (N.ltb_spec 0 x) as [G|G].
  - destruct (dig_len x H G) as [E K]. rewrite E in L. injection L as <-. replace (x =? 0) with false by (symmetry; apply N.eqb_neq; lia).
    change DIG_PER_DEC1 with 9. rewrite pow10_get by exact H.
    eapply te_bind with (F := fun f hs w => w = [] /\ hs = [(f * 10 ^ (9 - x)) mod 2 ^ 32]); [apply (te_extra _ false neg K)| |].
    + intros f w _. intros bs v rest. unfold pbind, plift, pret, wmul. cbn [fst snd].
      split; [intros Q; injection Q as <- <-; exists []; auto|intros (w0 & -> & -> & ->); reflexivity].
    + intros hs w. rewrite <- pow256. split.
      * intros (gs & -> & F & ->). inversion F as [|? g ? ? Fg Fn]; subst. inversion Fn; subst. cbn [removelast last app] in *.
        exists g, (cpl (dig_bytes x) neg g), []. rewrite cpls_one, app_nil_r. repeat split; assumption.
      * intros (g & w1 & w2 & -> & [Fg ->] & -> & ->). exists [g]. rewrite cpls_one, app_nil_r. cbn [removelast last app]. repeat split; repeat constructor; assumption.
  - assert (x = 0) by lia. subst x. cbn [N.eqb]. apply te_ret. intros gs w. split; [intros (hs & -> & F & ->); inversion F; subst; destruct neg; auto|intros [-> ->]; exists []; split; [reflexivity|split; [apply Forall2_nil|destruct neg; reflexivity]]].
Qed.
Lemma te_decimal_body_rel intg frac li lf neg : tget DIG_TO_BYTES (intg mod 9) = Ok li -> tget DIG_TO_BYTES (frac mod 9) = Ok lf ->
  takes_exactly
    (a <- (if 0 <? intg mod 9 then f <- read_extra_fragment true li neg ;; pret [f] else pret []) ;;
     b <- prepeat (N.to_nat (intg / 9)) (read_fragment neg) ;;
     c <- prepeat (N.to_nat (frac / 9)) (read_fragment neg) ;;
     d <- (if 0 <? frac mod 9 then f <- read_extra_fragment false lf neg ;; p <- plift (tget POWERS_10 (DIG_PER_DEC1 - frac mod 9)) ;; pret [wmul 32 f p] else pret []) ;;
     pret (mk_dec intg frac neg (a ++ b ++ c ++ d)))
    (fun d w => exists gs, d = mk_dec intg frac neg (release_scaled frac gs) /\
      let widths := int_widths intg ++ frac_widths frac in
      Forall2 fits widths gs /\
      w = if intg mod 9 =? 0 then cpls neg widths gs else flip_first (cpls neg widths gs)).
Proof.
  intros Li Lf.
  assert (I9 : intg mod 9 < 9) by (apply N.mod_lt; discriminate). assert (F9 : frac mod 9 < 9) by (apply N.mod_lt; discriminate).
  pose (LG n gs w := Forall2 fits (repeat 4%nat n) gs /\ w = cpls neg (repeat 4%nat n) gs).
  pose (LL hs w := exists gs, hs = release_scale_last (frac mod 9) gs /\ Forall2 fits (part_widths (frac mod 9)) gs /\ w = cpls neg (part_widths (frac mod 9)) gs).
  eapply te_bind with (F := fun a d w => exists b c dd wb wc wd, w = wb ++ wc ++ wd /\ d = mk_dec intg frac neg (a ++ b ++ c ++ dd) /\ LG (N.to_nat (intg / 9)) b wb /\ LG (N.to_nat (frac / 9)) c wc /\ LL dd wd);
      [exact (te_first_group _ _ neg I9 Li)| |].
  { intros a w0 _.
      eapply te_bind with (F := fun b d w => exists c dd wc wd, w = wc ++ wd /\ d = mk_dec intg frac neg (a ++ b ++ c ++ dd) /\ LG (N.to_nat (frac / 9)) c wc /\ LL dd wd); [exact (te_groups neg _)| |].
      - intros b w1 _. eapply te_bind with (F := fun c d w => exists dd, d = mk_dec intg frac neg (a ++ b ++ c ++ dd) /\ LL dd w); [exact (te_groups neg _)| |].
        + intros c w2 _. apply (te_map (fun dd => mk_dec intg frac neg (a ++ b ++ c ++ dd)) _ _ _ (te_last_group_rel _ _ neg F9 Lf)). intros; reflexivity.
        + intros v w. split.
          * intros (c & dd & wc & wd & -> & -> & C & D). exists c, wc, wd. split; [reflexivity|]. split; [exact C|]. exists dd. split; [reflexivity|exact D].
          * intros (c & wc & wd & -> & C & dd & -> & D). exists c, dd, wc, wd. split; [reflexivity|]. split; [reflexivity|]. split; [exact C|exact D].
      - intros v w. split.
        + intros (b & c & dd & wb & wc & wd & -> & -> & B & C & D). exists b, wb, (wc ++ wd). split; [reflexivity|]. split; [exact B|]. exists c, dd, wc, wd. repeat split; [exact (proj1 C)|exact (proj2 C)|exact D].
        + intros (b & wb & w2 & -> & B & c & dd & wc & wd & -> & -> & C & D). exists b, c, dd, wb, wc, wd. split; [reflexivity|]. split; [reflexivity|]. split; [exact B|]. split; [exact C|exact D]. }
  intros d w. cbv beta zeta.
  assert (WI : int_widths intg = part_widths (intg mod 9) ++ repeat 4%nat (N.to_nat (intg / 9))) by reflexivity.
  assert (WF : frac_widths frac = repeat 4%nat (N.to_nat (frac / 9)) ++ part_widths (frac mod 9)) by reflexivity.
  assert (SC : forall a b c dd, Forall2 fits (part_widths (frac mod 9)) dd -> release_scaled frac (a ++ b ++ c ++ dd) = a ++ b ++ c ++ release_scale_last (frac mod 9) dd).
  { intros a b c dd F. unfold release_scaled, release_scale_last. unfold part_widths in F. destruct (frac mod 9 =? 0); [reflexivity|].
    inversion F as [|? g ? ? Fg Fn]; subst. inversion Fn; subst. rewrite !app_assoc. rewrite removelast_last, last_last. cbn [removelast last]. rewrite app_nil_r. reflexivity. }
  assert (CP : forall a b c dd, Forall2 fits (part_widths (intg mod 9)) a -> Forall2 fits (repeat 4%nat (N.to_nat (intg / 9))) b -> Forall2 fits (repeat 4%nat (N.to_nat (frac / 9))) c ->
    cpls neg (int_widths intg ++ frac_widths frac) (a ++ b ++ c ++ dd) = cpls neg (part_widths (intg mod 9)) a ++ cpls neg (repeat 4%nat (N.to_nat (intg / 9))) b ++ cpls neg (repeat 4%nat (N.to_nat (frac / 9))) c ++ cpls neg (part_widths (frac mod 9)) dd).
  { intros a b c dd A B C. rewrite WI, WF, <- !app_assoc. rewrite !cpls_app; [reflexivity| | |]; eapply f2_length; eassumption. }
  assert (FL : forall a y, Forall2 fits (part_widths (intg mod 9)) a ->
    (if intg mod 9 =? 0 then cpls neg (part_widths (intg mod 9)) a ++ y else flip_first (cpls neg (part_widths (intg mod 9)) a ++ y)) =
    (if intg mod 9 =? 0 then [] else flip_first (cpls neg (part_widths (intg mod 9)) a)) ++ y).
  { intros a y A. unfold part_widths in *. destruct (N.eqb_spec (intg mod 9) 0) as [Z|Z].
    - inversion A; subst. unfold cpls. destruct neg; reflexivity.
    - apply flip_first_app. intros Q. apply (f_equal (@length byte)) in Q. revert Q. unfold cpls. destruct (dig_len (intg mod 9) I9 ltac:(lia)) as [_ K].
      inversion A as [|? g ? ? Fg Fn]; subst. inversion Fn; subst. cbn [wbes]. rewrite app_nil_r. destruct neg; rewrite ?map_length, wbe_length; cbn [length]; lia. }
  split.
  - intros (gs & -> & F & W). rewrite WI, WF, <- !app_assoc in F.
    apply Forall2_app_inv_l in F. destruct F as (a & gs1 & A & F & ->). apply Forall2_app_inv_l in F. destruct F as (b & gs2 & Bf & F & ->).
    apply Forall2_app_inv_l in F. destruct F as (c & dd & C & D & ->). rewrite SC in * by exact D. rewrite CP in W by assumption. rewrite FL in W by exact A. subst w.
    eexists a, _, _. split; [reflexivity|]. split; [split; [exact A|reflexivity]|]. exists b, c, (release_scale_last (frac mod 9) dd). do 3 eexists. split; [reflexivity|]. split; [reflexivity|].
    split; [split; [exact Bf|reflexivity]|]. split; [split; [exact C|reflexivity]|]. exists dd. split; [reflexivity|].
    split; [exact D|reflexivity].
  - intros (a & wa & w1 & -> & [A ->] & b & c & hs & wb & wc & wd & -> & -> & [Bf ->] & [C ->] & dd & -> & D & ->).
    exists (a ++ b ++ c ++ dd). rewrite SC by exact D. rewrite CP by assumption. rewrite FL by exact A. split; [reflexivity|].
    split; [rewrite WI, WF, <- !app_assoc; repeat (apply Forall2_app; [assumption|]); assumption|]. reflexivity.
Qed.
Lemma accepts_decimal_rel intg frac : takes_before (read_decimal_rel intg frac) (release_decimal_layout intg frac).
Proof.
  intros bs d rest. unfold read_decimal_rel. cbv zeta. change DIG_PER_DEC1 with 9.
  replace (intg - intg / 9 * 9) with (intg mod 9) by lia. replace (frac - frac / 9 * 9) with (frac mod 9) by lia.
  assert (I9 : intg mod 9 < 9) by (apply N.mod_lt; discriminate). assert (F9 : frac mod 9 < 9) by (apply N.mod_lt; discriminate).
  destruct (dig_some _ I9) as [li Li]. destruct (dig_some _ F9) as [lf Lf].
  rewrite Li, Lf. unfold pbind at 1 2. unfold plift at 1 2. cbn [fst snd].
  destruct bs as [|b more].
  - split.
    + intros H. injection H as <- <-. exists []. split; [reflexivity|]. left. auto.
    + intros (w & E & [[_ ->]|(b & more & gs & E2 & _)]); [|congruence]. symmetry in E. apply app_eq_nil in E. destruct E as [-> ->]. reflexivity.
  - rewrite sign_bit. pose proof (te_decimal_body_rel intg frac li lf (b2n b <? 128) Li Lf (b :: more) d rest) as T. change DIG_PER_DEC1 with 9 in T. rewrite T. cbv beta zeta. split.
    + intros (w & E & gs & D & F & W). exists w. split; [exact E|]. right. exists b, more, gs. split; [symmetry; exact E|]. split; [exact D|]. split; [exact F|]. exact W.
    + intros (w & E & [[E2 _]|(b' & more' & gs & E2 & D & F & W)]); [congruence|]. rewrite <- E in E2. injection E2 as <- <-. exists w. split; [exact E|]. exists gs. split; [exact D|]. split; [exact F|]. exact W.
Qed.

(** ** Values *)
Theorem accepts_value_rel m : takes_before (read_binlog_value_rel m) (release_value_layout m).
Proof.
  assert (S : forall x, takes_before (read_binlog_value x) (value_layout x)) by exact accepts_value.
  destruct m; try exact (S _); cbn [read_binlog_value_rel release_value_layout].
  - wrapped te_f64_rel.
  - apply (tb_map LDateTime _ (fun v w _ => release_datetime_layout frac v w)); [apply tb_of, accepts_datetime_rel|reflexivity].
  - eapply tb_iff; [|apply (tb_map LBit _ (fun v w _ => N.of_nat (length v) = wadd 8 bytes (if 0 <? bits then 1 else 0) /\ w = v) (fun v w _ => exists s, v = LBit s /\ N.of_nat (length s) = wadd 8 bytes (if 0 <? bits then 1 else 0) /\ w = s)); [apply tb_of, te_len|reflexivity]].
    assert (Z : (if 0 <? bits then 1 else 0) = (if bits =? 0 then 0 else 1)) by (destruct bits; reflexivity). rewrite Z. unfold wadd.
    intros v w rest. split; intros (s & -> & A & B); exists s; auto.
  - wrapped (accepts_time_rel frac).
  - eapply tb_iff; [|apply (tb_map LNewDecimal _ _ (fun v w rest => exists d, v = LNewDecimal d /\ release_decimal_layout (rsub 8 prec frac) frac d w rest) (accepts_decimal_rel (rsub 8 prec frac) frac)); reflexivity].
    intros v w rest. unfold rsub, release_value_layout. destruct (N.leb_spec frac prec), (N.ltb_spec prec frac); try lia; reflexivity.
  - eapply tb_iff; [|apply tb_of, (te_prefixed LVarString _ _ (te_length_of max_len))]. reflexivity.
Qed.

Lemma tb_columns_rel present null metas cb n : forall i j, (i + n <= 8 * length cb)%nat ->
  (forall k, (k < n)%nat -> bit cb (i + k) = is_val (nth k (cells present null i j n) CAbsent)) ->
  takes_before (read_log_cols_rel n i cb metas) (release_image_columns present null metas i j n).
Proof.
  induction n as [|n IH]; intros i j L B; cbn [read_log_cols_rel].
  - apply tb_ret. intros v w rest. split; [intros H; inversion H; auto|intros [-> ->]; constructor].
  - rewrite bm_index_spec by lia. pose proof (B 0%nat ltac:(lia)) as B0. rewrite Nat.add_0_r in B0. rewrite B0.
    intros bs v rest. unfold pbind at 1, plift at 1. cbn [fst snd]. revert bs v rest.
    match goal with |- forall bs v rest, ?p bs = _ <-> _ => change (takes_before p (release_image_columns present null metas i j (S n))) end.
    assert (J : forall j', (forall k, (k < n)%nat -> nth (S k) (cells present null i j (S n)) CAbsent = nth k (cells present null (S i) j' n) CAbsent) ->
              takes_before (read_log_cols_rel n (S i) cb metas) (release_image_columns present null metas (S i) j' n)).
    { intros j' E. apply IH; [lia|]. intros k K. rewrite Nat.add_succ_comm. rewrite B by lia. rewrite E by exact K. reflexivity. }
    destruct (present i) eqn:P; [destruct (null j) eqn:Q|].
    + specialize (J (S j)). cbn [cells] in J |- *. rewrite P, Q in J |- *. specialize (J (fun k _ => eq_refl)). cbn [nth is_val].
      eapply tb_bind with (E := fun v w _ => v = LNull /\ w = []) (F := fun a v w rest => exists vs, v = a :: vs /\ release_image_columns present null metas (S i) (S j) n vs w rest).
      * apply tb_ret. reflexivity.
      * intros a w rest _. apply (tb_map (cons a) _ _ _ J). reflexivity.
      * intros v w rest. split.
        -- intros H. inversion H; subst; try congruence. exists LNull, [], w. repeat split. eexists. split; [reflexivity|assumption].
        -- intros (a & w1 & w2 & -> & [-> ->] & vs & -> & H). apply ric_null; assumption.
    + specialize (J (S j)). cbn [cells] in J |- *. rewrite P, Q in J |- *. specialize (J (fun k _ => eq_refl)). cbn [nth is_val].
      eapply tb_bind with (E := fun v w rest => exists m, nth_error metas i = Some m /\ release_value_layout m v w rest) (F := fun a v w rest => exists vs, v = a :: vs /\ release_image_columns present null metas (S i) (S j) n vs w rest).
      * destruct (nth_error metas i) as [m|].
        -- eapply tb_iff; [|apply (accepts_value_rel m)]. intros v w rest. split; [intros H; exists m; auto|intros (m' & [= <-] & H); exact H].
        -- apply tb_fail; [discriminate|]. intros v w rest (m & H & _). discriminate.
      * intros a w rest _. apply (tb_map (cons a) _ _ _ J). reflexivity.
      * intros v w rest. split.
        -- intros H. inversion H; subst; try congruence. do 3 eexists. split; [reflexivity|]. split; [eexists; split; eassumption|]. eexists. split; [reflexivity|assumption].
        -- intros (a & w1 & w2 & -> & (m & M & V) & vs & -> & H). eapply ric_value; eassumption.
    + specialize (J j). cbn [cells] in J |- *. rewrite P in J |- *. specialize (J (fun k _ => eq_refl)). cbn [nth is_val].
      eapply tb_bind with (E := fun v w _ => v = LNull /\ w = []) (F := fun a v w rest => exists vs, v = a :: vs /\ release_image_columns present null metas (S i) j n vs w rest).
      * apply tb_ret. reflexivity.
      * intros a w rest _. apply (tb_map (cons a) _ _ _ J). reflexivity.
      * intros v w rest. split.
        -- intros H. inversion H; subst; try congruence. exists LNull, [], w. repeat split. eexists. split; [reflexivity|assumption].
        -- intros (a & w1 & w2 & -> & [-> ->] & vs & -> & H). apply ric_absent; assumption.
Qed.
Lemma accepts_image_rel n present metas : n <= 8 * N.of_nat (length present) ->
  takes_before (read_row_image_rel n present (present_count n present) metas) (release_image_layout n present metas).
Proof.
  intros L. unfold read_row_image_rel.
  eapply tb_bind with (E := fun s w _ => N.of_nat (length s) = N.shiftr (N.of_nat (present_count n present) + 7) 3 /\ exactly s w)
    (F := fun nulls vs w rest => 40 * n < 2 ^ 63 /\ release_image_columns (bit present) (bit nulls) metas 0 0 (N.to_nat n) vs w rest); [apply tb_of, te_len| |].
  - intros nulls w rest [Ln _]. rewrite N.shiftr_div_pow2 in Ln. change (2 ^ 3) with 8 in Ln.
    set (row := cells (bit present) (bit nulls) 0 0 (N.to_nat n)).
    assert (C : length (filter is_present row) = present_count n present) by apply cells_count.
    destruct (mark_nulls_spec row 0 0 nulls present) as (cb & M1 & M2 & M3 & _).
    + intros k K. unfold row in *. rewrite cells_length in K. rewrite cells_present by exact K. reflexivity.
    + unfold row. rewrite cells_length. lia.
    + intros k K. unfold row in *. rewrite cells_null by exact K. reflexivity.
    + rewrite C. lia.
    + rewrite C in M1. rewrite M1. intros bs v r. unfold pbind at 1, plift at 1. cbn [fst snd]. revert bs v r.
      match goal with |- forall bs v rest, ?p bs = _ <-> _ => change (takes_before p (fun vs w rest => 40 * n < 2 ^ 63 /\ release_image_columns (bit present) (bit nulls) metas 0 0 (N.to_nat n) vs w rest)) end.
      unfold read_log_row_rel. apply tb_lift.
      * intros u U. destruct u. apply with_capacity_ok in U. eapply tb_iff; [|apply (tb_columns_rel (bit present) (bit nulls))].
        -- intros vs w0 r. split; [intros H; split; [exact U|exact H]|intros [_ H]; exact H].
        -- rewrite M2. lia.
        -- intros k K. unfold row in *. rewrite cells_length in M3. apply M3. exact K.
      * intros X v w0 r [H _]. apply (with_capacity_ok 40 n tt) in H. apply (X _ H).
  - intros v w rest. unfold release_image_layout. split.
    + intros (_ & nulls & cols & -> & Ln & B & H). exists nulls, nulls, cols. split; [reflexivity|]. split; [split; [|reflexivity]|auto].
      rewrite N.shiftr_div_pow2. change (2 ^ 3) with 8. rewrite Ln. lia.
    + intros (nulls & w1 & cols & -> & [Ln W] & B & H). unfold exactly in W. subst w1. split; [exact L|]. exists nulls, cols. split; [reflexivity|]. split; [|auto].
      rewrite N.shiftr_div_pow2 in Ln. change (2 ^ 3) with 8 in Ln. lia.
Qed.

(** ** Row events *)
Lemma any_image_rel n present metas : n <= 8 * N.of_nat (length present) \/ (present = [] /\ n <> 0) ->
  exists c, count_present n present = Ok c /\ takes_before (read_row_image_rel n present c metas) (release_image_layout n present metas).
Proof.
  intros [L|[-> Z]].
  - exists (present_count n present). split; [apply count_is; exact L|apply accepts_image_rel; exact L].
  - exists 0%nat. split.
    + unfold count_present. change (bm_to_iter [] 0) with (@Ok (list bool) []). cbn [rmap rbind]. rewrite firstn_nil. reflexivity.
    + apply tb_fail.
      * intros bs v rest. unfold read_row_image_rel. change (N.shiftr (N.of_nat 0 + 7) 3) with 0.
        assert (Q : exists m, N.to_nat n = S m) by (exists (Nat.pred (N.to_nat n)); lia). destruct Q as [m Q].
        unfold read_log_row_rel. rewrite Q. cbn [read_log_cols_rel mark_nulls].
        unfold pbind, plift. cbn [fst snd]. destruct (read_len 0 bs) as [[x| | |] r]; try discriminate.
        destruct (Cmd.with_capacity 40 n) as [u| | |]; try discriminate.
      * intros v w rest [L _]. cbn [length] in L. lia.
Qed.
Lemma bitmap_rel n k (bm : bytes) : n < 2 ^ 32 -> k = (n + 7) mod 2 ^ 32 / 8 -> N.of_nat (length bm) = k -> n <= 8 * N.of_nat (length bm) \/ (bm = [] /\ n <> 0).
Proof.
  intros B -> L. destruct (N.lt_ge_cases (n + 7) (2 ^ 32)) as [H|H].
  - left. rewrite L, N.mod_small by exact H. lia.
  - right. assert (E : (n + 7) mod 2 ^ 32 = n + 7 - 2 ^ 32).
    { symmetry. apply (N.mod_unique _ _ 1); lia. }
    rewrite E in L. rewrite N.div_small in L by lia. split; [destruct bm; [reflexivity|discriminate]|lia].
Qed.
Lemma te_n_cols_rel : takes_exactly read_n_cols_rel (fun x w => (fst x < 2 ^ 32 /\ snd x = (fst x + 7) mod 2 ^ 32 / 8) /\ column_count (fst x) w).
Proof.
  eapply te_bind with (F := fun l x w => w = [] /\ lei_to_u32 l = Some (fst x) /\ snd x = (fst x + 7) mod 2 ^ 32 / 8); [exact te_lei| |].
  - intros l w L bs [n k] rest. cbn [fst snd]. destruct (lei_to_u32 l) as [m|].
    + rewrite ret_bind. unfold pret, wadd. rewrite N.shiftr_div_pow2. change (2 ^ 3) with 8. split.
      * intros [= <- <- <-]. exists []. auto.
      * intros (w0 & -> & -> & [= ->] & ->). reflexivity.
    + split; [discriminate|]. intros (w0 & _ & _ & X & _). discriminate.
  - intros [n k] w. cbn [fst snd]. unfold column_count. split.
    + intros [[_ C] (m & M & ->)]. apply any_lei in M. destruct M as (l & L & M). exists l, w, []. rewrite app_nil_r. split; [reflexivity|]. split; [exact L|]. split; [reflexivity|]. split; [apply (lei_u32 _ _ _ L); exists m; auto|exact C].
    + intros (l & w1 & w2 & -> & L & -> & M & C). apply (lei_u32 _ _ _ L) in M. destruct M as (m & M & ->). rewrite app_nil_r. split; [split; [apply N.mod_lt; discriminate|exact C]|]. exists m. split; [apply any_lei; eauto|reflexivity].
Qed.
Lemma column_count_bound n w : column_count n w -> n < 2 ^ 32.
Proof. intros (m & _ & ->). apply N.mod_lt. discriminate. Qed.
Theorem accepts_rows_rel d metas r : rd2_extra_data_len d < 2 ^ 64 -> rows_of_rel d metas = Ok r <-> release_rows_event_layout (rd2_extra_data_len d) metas r (rd2_payload d).
Proof.
  unfold rows_of_rel. generalize (rd2_payload d) as msg. generalize (rd2_extra_data_len d) as len. intros len msg Bl. revert msg r.
  change (takes_message (read_rows_v2_rel len metas) (release_rows_event_layout len metas)). unfold read_rows_v2_rel.
  eapply tm_bind with (F := fun extra v w => exists w1 w2 w3, w = w1 ++ w2 ++ w3 /\ r_extra_data v = extra /\ (r_n_cols v < 2 ^ 32 /\ column_count (r_n_cols v) w1) /\
    (N.of_nat (length (r_present_bitmap v)) = (r_n_cols v + 7) mod 2 ^ 32 / 8 /\ w2 = r_present_bitmap v) /\ rows_layout (release_image_layout (r_n_cols v) (r_present_bitmap v) metas) (r_rows v) w3); [apply te_len| |].
  { intros extra w0 _.
    eapply tm_bind with (F := fun x v w => exists w2 w3, w = w2 ++ w3 /\ r_extra_data v = extra /\ r_n_cols v = fst x /\
      (N.of_nat (length (r_present_bitmap v)) = snd x /\ w2 = r_present_bitmap v) /\ rows_layout (release_image_layout (r_n_cols v) (r_present_bitmap v) metas) (r_rows v) w3); [apply te_n_cols_rel| |].
    - intros [k bl] w1 [[K BL] _]. cbn [fst snd] in *.
      eapply tm_bind with (F := fun bm v w => exists rows, v = mk_rows extra k bm rows /\ rows_layout (release_image_layout k bm metas) rows w); [apply te_len| |].
      + intros bm w2 [Lb _]. destruct (any_image_rel k bm metas (bitmap_rel k bl bm K BL Lb)) as (c & Qc & Tc). rewrite Qc. apply tm_lift; [|intros X; destruct (X _ eq_refl)].
        intros c' [= <-]. apply tm_rows. exact Tc.
      + intros v w. split.
        * intros (w2 & w3 & -> & <- & <- & [Lb ->] & R). exists (r_present_bitmap v), (r_present_bitmap v), w3. split; [reflexivity|]. split; [split; [exact Lb|reflexivity]|]. exists (r_rows v). split; [destruct v; reflexivity|exact R].
        * intros (bm & w2 & w3 & -> & [Lb W] & rows & -> & R). exists w2, w3. cbn [r_extra_data r_n_cols r_present_bitmap r_rows]. repeat split; assumption.
    - intros v w. split.
      + intros (w1 & w2 & w3 & -> & <- & [K C] & [Lb ->] & R). exists (r_n_cols v, (r_n_cols v + 7) mod 2 ^ 32 / 8), w1, (r_present_bitmap v ++ w3). cbn [fst snd]. split; [reflexivity|]. split; [split; [split; [exact K|reflexivity]|exact C]|].
        exists (r_present_bitmap v), w3. repeat split; assumption.
      + intros ([k bl] & w1 & w23 & -> & [[K BL] C] & w2 & w3 & -> & E & En & [Lb ->] & R). cbn [fst snd] in *. subst k bl. exists w1, (r_present_bitmap v), w3. repeat split; assumption. }
  intros v w. unfold release_rows_event_layout. split.
  - intros [(L & Lb) H]. apply fields_cons_inv in H. destruct H as (w0 & w' & -> & -> & H). apply fields_cons_inv in H. destruct H as (w1 & w'' & -> & C & H).
    apply fields_cons_inv in H. destruct H as (w2 & w3 & -> & -> & H). rewrite fields_one in H. exists (r_extra_data v), (r_extra_data v), (w1 ++ r_present_bitmap v ++ w3).
    split; [reflexivity|]. split; [split; [apply gives_rsub; [exact Bl|reflexivity|exact L]|reflexivity]|]. pose proof (column_count_bound _ _ C) as K. exists w1, (r_present_bitmap v), w3. repeat split; assumption.
  - intros (extra & w0 & w' & -> & [L W] & w1 & w2 & w3 & -> & <- & [K C] & [Lb ->] & R). unfold exactly in W. subst w0. split; [split; [apply gives_rsub; [exact Bl|reflexivity|exact L]|exact Lb]|].
    constructor; [reflexivity|]. constructor; [exact C|]. constructor; [reflexivity|]. apply fields_one. exact R.
Qed.
Lemma accepts_pair_rel n before after metas : forall cb ca, takes_before (read_row_image_rel n before cb metas) (release_image_layout n before metas) -> takes_before (read_row_image_rel n after ca metas) (release_image_layout n after metas) ->
  takes_before (before_row <- read_row_image_rel n before cb metas ;; after_row <- read_row_image_rel n after ca metas ;; pret (before_row, after_row))
    (release_update_layout n before after metas).
Proof.
  intros cb ca B A. eapply tb_bind with (F := fun b v w rest => exists a, v = (b, a) /\ release_image_layout n after metas a w rest); [exact B| |].
  - intros b w rest _. apply (tb_map (fun a => (b, a)) _ _ _ A). reflexivity.
  - intros v w rest. unfold release_update_layout. split.
    + intros (w1 & w2 & -> & X & Y). exists (fst v), w1, w2. split; [reflexivity|]. split; [exact X|]. exists (snd v). split; [destruct v; reflexivity|exact Y].
    + intros (b & w1 & w2 & -> & X & a & -> & Y). exists w1, w2. auto.
Qed.
Theorem accepts_update_rows_rel d metas r : rd2_extra_data_len d < 2 ^ 64 -> update_rows_of_rel d metas = Ok r <-> release_update_event_layout (rd2_extra_data_len d) metas r (rd2_payload d).
Proof.
  unfold update_rows_of_rel. generalize (rd2_payload d) as msg. generalize (rd2_extra_data_len d) as len. intros len msg Bl. revert msg r.
  change (takes_message (read_update_rows_rel len metas) (release_update_event_layout len metas)). unfold read_update_rows_rel.
  pose (R (v : update_rows_v2) := rows_layout (release_update_layout (u_n_cols v) (u_before_present_bitmap v) (u_after_present_bitmap v) metas) (u_rows v)).
  eapply tm_bind with (F := fun extra v w => exists w1 w2 w3 w4, w = w1 ++ w2 ++ w3 ++ w4 /\ u_extra_data v = extra /\ (u_n_cols v < 2 ^ 32 /\ column_count (u_n_cols v) w1) /\
    (N.of_nat (length (u_before_present_bitmap v)) = (u_n_cols v + 7) mod 2 ^ 32 / 8 /\ w2 = u_before_present_bitmap v) /\
    (N.of_nat (length (u_after_present_bitmap v)) = (u_n_cols v + 7) mod 2 ^ 32 / 8 /\ w3 = u_after_present_bitmap v) /\ R v w4); [apply te_len| |].
  { intros extra w0 _.
    eapply tm_bind with (F := fun x v w => exists w2 w3 w4, w = w2 ++ w3 ++ w4 /\ u_extra_data v = extra /\ u_n_cols v = fst x /\
      (N.of_nat (length (u_before_present_bitmap v)) = snd x /\ w2 = u_before_present_bitmap v) /\
      (N.of_nat (length (u_after_present_bitmap v)) = snd x /\ w3 = u_after_present_bitmap v) /\ R v w4); [apply te_n_cols_rel| |].
    - intros [k bl] w1 [[K BL] _]. cbn [fst snd] in *.
      eapply tm_bind with (F := fun bm v w => exists w3 w4, w = w3 ++ w4 /\ u_extra_data v = extra /\ u_n_cols v = k /\ u_before_present_bitmap v = bm /\
        (N.of_nat (length (u_after_present_bitmap v)) = bl /\ w3 = u_after_present_bitmap v) /\ R v w4); [apply te_len| |].
      + intros bm w2 [Lb _]. destruct (any_image_rel k bm metas (bitmap_rel k bl bm K BL Lb)) as (cb & Qb & Tb).
        eapply tm_bind with (F := fun am v w => exists rows, v = mk_update_rows extra k bm am rows /\ rows_layout (release_update_layout k bm am metas) rows w); [apply te_len| |].
        * intros am w3 [La _]. destruct (any_image_rel k am metas (bitmap_rel k bl am K BL La)) as (ca & Qa & Ta). rewrite Qb, Qa.
          apply tm_lift; [|intros X; destruct (X _ eq_refl)]. intros c' [= <-]. apply tm_lift; [|intros X; destruct (X _ eq_refl)]. intros c'' [= <-].
          apply tm_rows. apply accepts_pair_rel; assumption.
        * intros v w. split.
          -- intros (w3 & w4 & -> & <- & <- & <- & [La ->] & H). exists (u_after_present_bitmap v), (u_after_present_bitmap v), w4. split; [reflexivity|]. split; [split; [exact La|reflexivity]|]. exists (u_rows v). split; [destruct v; reflexivity|exact H].
          -- intros (am & w3 & w4 & -> & [La W] & rows & -> & H). exists w3, w4. cbn [u_extra_data u_n_cols u_before_present_bitmap u_after_present_bitmap u_rows]. repeat split; assumption.
      + intros v w. split.
        * intros (w2 & w3 & w4 & -> & <- & <- & [Lb ->] & [La ->] & H). exists (u_before_present_bitmap v), (u_before_present_bitmap v), (u_after_present_bitmap v ++ w4). split; [reflexivity|]. split; [split; [exact Lb|reflexivity]|].
          exists (u_after_present_bitmap v), w4. repeat split; assumption.
        * intros (bm & w2 & w34 & -> & [Lb W] & w3 & w4 & -> & E & En & <- & [La ->] & H). exists w2, (u_after_present_bitmap v), w4. repeat split; assumption.
    - intros v w. split.
      + intros (w1 & w2 & w3 & w4 & -> & <- & [K C] & [Lb ->] & [La ->] & H). exists (u_n_cols v, (u_n_cols v + 7) mod 2 ^ 32 / 8), w1, (u_before_present_bitmap v ++ u_after_present_bitmap v ++ w4). cbn [fst snd]. split; [reflexivity|]. split; [split; [split; [exact K|reflexivity]|exact C]|].
        exists (u_before_present_bitmap v), (u_after_present_bitmap v), w4. repeat split; assumption.
      + intros ([k bl] & w1 & w234 & -> & [[K BL] C] & w2 & w3 & w4 & -> & E & En & [Lb ->] & [La ->] & H). cbn [fst snd] in *. subst k bl. exists w1, (u_before_present_bitmap v), (u_after_present_bitmap v), w4. repeat split; assumption. }
  intros v w. unfold release_update_event_layout. split.
  - intros [(L & Lb & La) H]. apply fields_cons_inv in H. destruct H as (w0 & w' & -> & -> & H). apply fields_cons_inv in H. destruct H as (w1 & w'' & -> & C & H).
    apply fields_cons_inv in H. destruct H as (w2 & w34 & -> & -> & H). apply fields_cons_inv in H. destruct H as (w3 & w4 & -> & -> & H). rewrite fields_one in H.
    exists (u_extra_data v), (u_extra_data v), (w1 ++ u_before_present_bitmap v ++ u_after_present_bitmap v ++ w4).
    split; [reflexivity|]. split; [split; [apply gives_rsub; [exact Bl|reflexivity|exact L]|reflexivity]|]. pose proof (column_count_bound _ _ C) as K. exists w1, (u_before_present_bitmap v), (u_after_present_bitmap v), w4. repeat split; assumption.
  - intros (extra & w0 & w' & -> & [L W] & w1 & w2 & w3 & w4 & -> & <- & [K C] & [Lb ->] & [La ->] & H). unfold exactly in W. subst w0. split; [split; [apply gives_rsub; [exact Bl|reflexivity|exact L]|split; [exact Lb|exact La]]|].
    constructor; [reflexivity|]. constructor; [exact C|]. constructor; [reflexivity|]. constructor; [reflexivity|]. apply fields_one. exact H.
Qed.

(** ** Comparison with a build with checks *)
Lemma packed_zero dec p w : packed_layout 5 dec p w -> (be_val w = 0 <-> p = (- 2 ^ 63)%Z).
Proof.
  intros (width & unit & n & f & F & W & ->). apply fields_cons_inv in W. destruct W as (w1 & w2 & -> & [L1 V1] & W). rewrite fields_one in W. destruct W as [L2 V2].
  rewrite be_val_app, V1, V2, L2. change (2 ^ (8 * Z.of_nat 5 - 1))%Z with 549755813888%Z. change (2 ^ 24)%Z with 16777216%Z. change (- 2 ^ 63)%Z with (-9223372036854775808)%Z.
  assert (P : 256 ^ N.of_nat width <> 0) by (apply N.pow_nonzero; discriminate).
  assert (U : f * unit = 0 <-> f = 0).
  { destruct width as [|k].
    - destruct w2; [|discriminate]. cbn in V2. subst f. tauto.
    - rewrite N.mul_eq_0. split; [intros [Z|Z]; [exact Z|]|auto]. subst unit.
      destruct (fraction_cases dec) as [->|[[->| ->]|[[->| ->]|[[->| ->]|X]]]]; try discriminate F. exfalso. revert F. rewrite (fraction_none dec X). discriminate. }
  split.
  - intros H. apply N.eq_add_0 in H. destruct H as [H1 H2]. apply N.mul_eq_0 in H1. destruct H1 as [H1|H1]; [|contradiction]. apply U in H2. rewrite H1, H2. reflexivity.
  - intros H. assert (Q : n = 0 /\ f * unit = 0) by lia. destruct Q as [-> Q]. apply U in Q. rewrite Q. reflexivity.
Qed.
(** what [q] takes, if it has the property [P], [p] takes as well *)
Definition takes_too {A} (P : A -> Prop) (p q : parser A) : Prop := forall bs v r, q bs = (Ok v, r) -> P v -> p bs = (Ok v, r).
Lemma too_bind {A B} P (x : parser A) (f g : A -> parser B) : (forall a, takes_too P (f a) (g a)) -> takes_too P (pbind x f) (pbind x g).
Proof. intros H bs v r. unfold pbind. destruct (x bs) as [[a| | |] m]; try discriminate. apply H. Qed.
Lemma raw_table_map_too : takes_too (fun t => rtm_col_cnt t + 7 < 2 ^ 64) read_raw_table_map read_raw_table_map_rel.
Proof.
  unfold read_raw_table_map, read_raw_table_map_rel. do 12 (apply too_bind; intros ?). intros bs v r. unfold wadd, pbind, plift, cadd. cbn [fst snd].
  match goal with |- context [2 ^ 64 <=? ?x] => destruct (N.leb_spec (2 ^ 64) x) as [B|B] end.
  - destruct (read_len _ bs) as [[y| | |] m]; try discriminate. unfold pret. intros [= <- <-]. cbn [rtm_col_cnt]. lia.
  - rewrite N.mod_small by exact B. intros E _. exact E.
Qed.
Theorem accepts_table_map_rel d t : table_map_of_rel d = Ok t <-> whole_table_map_layout t (tmd_payload d).
Proof.
  rewrite <- accepts_whole_table_map. split.
  - unfold table_map_of_rel, table_map_of. destruct (read_raw_table_map_rel (tmd_payload d)) as [[raw| | |] r] eqn:E; try discriminate. cbn [fst rbind]. intros H.
    assert (B : rtm_col_cnt raw + 7 < 2 ^ 64).
    { unfold table_map_of_raw in H. destruct (from_utf8 (rtm_schema_name raw)); try discriminate. destruct (from_utf8 (rtm_table_name raw)); try discriminate. cbn [rbind] in H.
      destruct (read_column_metas (rtm_col_cnt raw) (rtm_col_defs raw) (rtm_col_meta_defs raw)) as [[ms| | |] r'] eqn:M; try discriminate.
      apply accepts_metas in M. destruct M as (w & _ & cts & more & _ & C & _). change (2 ^ 63) with 9223372036854775808 in C. change (2 ^ 64) with 18446744073709551616. lia. }
    rewrite (raw_table_map_too _ _ _ E B). cbn [fst rbind]. exact H.
  - intros H. pose proof (table_map_of_rel_ok d) as A. rewrite H in A. destruct A as [[A|A]|A]; [discriminate..|exact A].
Qed.
Lemma widths_narrow intg frac : Forall (fun k => (k <= 4)%nat) (int_widths intg ++ frac_widths frac).
Proof.
  assert (R : forall n, Forall (fun k => (k <= 4)%nat) (repeat 4%nat n)) by (induction n; constructor; auto).
  assert (D : forall x, Forall (fun k => (k <= 4)%nat) (part_widths (x mod 9))).
  { intros x. unfold part_widths. destruct (N.eqb_spec (x mod 9) 0) as [Z|Z]; [constructor|]. constructor; [|constructor].
    apply (dig_len (x mod 9)); [apply N.mod_lt; discriminate|lia]. }
  change (int_widths intg) with (part_widths (intg mod 9) ++ repeat 4%nat (N.to_nat (intg / 9))). change (frac_widths frac) with (repeat 4%nat (N.to_nat (frac / 9)) ++ part_widths (frac mod 9)).
  repeat (apply Forall_app; split); auto.
Qed.
Lemma narrow_groups widths gs : Forall (fun k => (k <= 4)%nat) widths -> Forall2 (fun k g => g < 256 ^ N.of_nat k) widths gs -> Forall (fun g => g < 2 ^ 32) gs.
Proof.
  intros N W. induction W as [|k g ks gs G W IH]; [constructor|]. inversion N; subst. constructor; [|auto].
  eapply N.lt_le_trans; [exact G|]. change (2 ^ 32) with (256 ^ 4). apply N.pow_le_mono_r; lia.
Qed.
