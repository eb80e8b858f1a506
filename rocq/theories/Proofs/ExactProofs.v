(** * Exactly which values come through *)
From Coq Require Import Strings.String.
From Coq Require Import List NArith ZArith Lia Arith Bool.
From Verif Require Import Model.Base Model.BytesParser Model.Utf8 Model.Auth Model.Fmt Model.Time Model.Decimal Model.Col Model.Stmt Model.Transform
  Spec.Nums Spec.Wire Spec.BitmapSpec Spec.Temporal Spec.DecimalSpec Spec.EventBodies Spec.BinlogValues Spec.SqlSpec Spec.ServerLog Spec.StoredValues
  Proofs.BaseLemmas Proofs.BytesParserProofs Proofs.CodecProofs Proofs.WireLemmas Proofs.CmdProofs Proofs.TimeProofs Proofs.DecimalProofs Proofs.DecimalExact
  Proofs.CalendarProofs Proofs.SqlProofs Proofs.SqlFindings Proofs.TextExact Proofs.RowsProofs Proofs.BinlogValueProofs Proofs.ServerLogProofs.
Import ListNotations.
Open Scope N_scope.

(** ** Numerals and dates *)
Lemma digits_inj k : forall n m, n < 10 ^ N.of_nat k -> m < 10 ^ N.of_nat k -> digits k n = digits k m -> n = m.
Proof.
  induction k as [|k IH]; intros n m Hn Hm H.
  - change (10 ^ N.of_nat 0) with 1 in *. lia.
  - cbn [digits] in H. apply app_inj_tail in H as [H1 H2].
    assert (Hd : forall x, x mod 10 < 10) by (intros x; apply N.mod_lt; discriminate).
    apply (f_equal b2n) in H2. pose proof (Hd n). pose proof (Hd m). rewrite !b2n_n2b in H2 by lia.
    replace (N.of_nat (S k)) with (N.succ (N.of_nat k)) in Hn, Hm by lia. rewrite N.pow_succ_r' in Hn, Hm.
    assert (Hq : forall x, x < 10 * 10 ^ N.of_nat k -> x / 10 < 10 ^ N.of_nat k) by (intros x Hx; apply N.div_lt_upper_bound; [discriminate|exact Hx]).
    specialize (IH _ _ (Hq n Hn) (Hq m Hm) H1). lia.
Qed.
Lemma numeral_inj n m s : numeral n s -> numeral m s -> n = m.
Proof.
  intros (k & -> & Hn & _) (j & E & Hm & _). assert (k = j) as -> by (apply (f_equal (@length byte)) in E; rewrite !digits_length in E; lia).
  exact (digits_inj _ _ _ Hn Hm E).
Qed.
Lemma vint_inj n m ts : value_tokens (VInt (Z.of_N n)) ts -> value_tokens (VInt (Z.of_N m)) ts -> n = m.
Proof.
  intros (s1 & N1 & E1) (s2 & N2 & E2). rewrite E1 in E2.
  destruct (Z.ltb_spec (Z.of_N n) 0); [lia|]. destruct (Z.ltb_spec (Z.of_N m) 0); [lia|]. cbn [minus app] in E2. injection E2 as <-.
  pose proof (numeral_inj _ _ _ N1 N2). lia.
Qed.
Lemma from_ymd_inv y m d nd : y <= 9999 -> from_ymd y m d = Ok nd -> calendar_date y m d.
Proof.
  intros Hy H. unfold from_ymd, valid_date in H. 
  destruct (N.leb_spec 1 m); [|discriminate]. destruct (N.leb_spec m 12); [|discriminate]. destruct (N.leb_spec 1 d); [|discriminate].
  destruct (N.leb_spec d (month_len y m)); [|discriminate]. rewrite month_len_days in * by lia. split; [exact Hy|]. lia.
Qed.
Lemma text_fraction_0 us : us < 1000000 -> text_fraction us = [] -> us = 0.
Proof. intros H E. unfold text_fraction in E. destruct (N.eqb_spec us 0); [assumption|discriminate]. Qed.

Section Exact.
  Variables fmt_f32 fmt_f64 : N -> bytes.
  Variable esc : bool.
  Notation literal v u := (rbind (sv_of_binlog v u) (param_text fmt_f32 fmt_f64)).

  Lemma decimal_literal d u s : literal (LNewDecimal d) u = Ok s -> fmt_decimal d = Ok s.
  Proof.
    cbn [sv_of_binlog]. unfold new_mydecimal. destruct (fmt_decimal d) as [t| | |]; cbn [rmap rbind]; try discriminate.
    unfold param_text, to_sql_literal. cbn [sv_val]. destruct (utf8_valid t); cbn [rmap rbind fst snd]; [exact (fun H => H)|discriminate].
  Qed.
  Lemma digits_is_dig a : alldigits a -> forallb is_dig a = true.
  Proof.
    intros H. apply forallb_forall. intros b Hb. unfold alldigits in H. rewrite Forall_forall in H. apply H in Hb.
    unfold is_dig. rewrite andb_true_iff, !N.leb_le. exact Hb.
  Qed.
  Lemma minus_inj (n1 n2 : bool) s1 s2 : minus n1 ++ [TkNum s1] = minus n2 ++ [TkNum s2] -> n1 = n2 /\ s1 = s2.
  Proof. destruct n1, n2; cbn; intros H; try discriminate; injection H as ->; split; reflexivity. Qed.
  Lemma decimal_dot (neg n : bool) e s : reads_as esc ((if neg then [n2b 45] else []) ++ n2b 46 :: e) (minus n ++ [TkNum s]) -> False.
  Proof.
    intros R. specialize (R [] I). rewrite app_nil_r in R. change (lex esc []) with (Some (@nil token)) in R. cbn [option_map] in R. rewrite app_nil_r in R.
    assert (Ld : forall l, lex esc (n2b 46 :: l) = option_map (cons (TkSym (n2b 46))) (lex esc l)) by (intros l; apply lex_sym; try reflexivity; discriminate).
    assert (Lm : forall l, lex esc (n2b 45 :: l) = option_map (cons (TkSym (n2b 45))) (lex esc l)) by (intros l; apply lex_sym; try reflexivity; discriminate).
    destruct neg; cbn [app] in R; rewrite ?Lm, ?Ld in R; destruct (lex esc e); cbn [option_map] in R; try discriminate; destruct n; cbn [minus app] in R; discriminate.
  Qed.
  Lemma decimal_right prec scale neg i f st d u s : 1 <= prec -> scale <= prec -> i < 10 ^ (prec - scale) ->
    read_decimal (prec - scale) scale (decimal_bytes (prec - scale) scale neg i f ++ []) = (Ok d, []) ->
    literal (LNewDecimal d) u = Ok s -> decimal_text scale false i f st -> reads_as esc s (minus neg ++ [TkNum st]) ->
    (prec - scale) mod 9 <> 0 /\ no_padding (prec - scale) scale i f.
  Proof.
    intros Hp Hs Hi R L T Re. apply decimal_literal in L. assert (Hpos : 0 < prec - scale + scale) by lia.
    assert (Es : forall n w, number_text w -> s = (if n : bool then [n2b 45] else []) ++ w -> n = neg /\ w = st).
    { intros n w Nw ->. apply minus_inj. exact (reads_unique _ _ _ _ (reads_signed esc n w Nw) Re). }
    destruct (N.eq_dec ((prec - scale) mod 9) 0) as [E|E].
    - exfalso. destruct (decimal_never _ _ _ _ _ _ _ _ _ Hpos E Hi R L) as (a & x & Ex & _ & Ha & Hx & He & Hn).
      destruct T as (si & Ni & Et). cbn [app] in Et. destruct (numeral_digits _ _ Ni) as [Hsi Nsi].
      destruct a as [|c a].
      + destruct x as [|c x].
        * cbn [app] in Ex. rewrite app_nil_r in Ex. rewrite Ex in Re. specialize (Re [] I). change (lex esc []) with (Some (@nil token)) in Re. cbn [option_map] in Re.
          destruct (d_neg d); [vm_compute in Re|vm_compute in Re]; destruct neg; cbn [minus app] in Re; discriminate.
        * destruct (He ltac:(discriminate)) as (e & E3 & _). rewrite E3 in Ex. cbn [app] in Ex. rewrite Ex in Re. exact (decimal_dot _ _ _ _ Re).
      + assert (Nt : number_text ((c :: a) ++ x)).
        { destruct x as [|b x].
          - exists (c :: a), []. rewrite !app_nil_r. split; [discriminate|]. split; [apply digits_is_dig; exact Ha|left; reflexivity].
          - destruct (He ltac:(discriminate)) as (e & -> & Hd). exists (c :: a), e. split; [discriminate|].
            split; [rewrite forallb_app; apply andb_true_intro; split; apply digits_is_dig; assumption|right; reflexivity]. }
        destruct (Es _ _ Nt Ex) as [_ E4]. rewrite Et in E4. apply Hn. destruct (N.eqb_spec scale 0) as [E0|E0].
        * assert (x = []) as -> by (apply Hx; exact E0). rewrite !app_nil_r in E4. rewrite E4. exact Ni.
        * destruct x as [|b x]; [exfalso; apply E0, Hx; reflexivity|]. destruct (He ltac:(discriminate)) as (e & E5 & _). rewrite E5 in E4.
          apply dot_split in E4 as [-> _]; [exact Ni|apply alldigits_no_dot; exact Ha|apply alldigits_no_dot; exact Hsi].
    - split; [exact E|]. destruct (decimal_print _ scale neg i f [] E Hi) as (d' & s' & R' & F' & U & I).
      rewrite R in R'. injection R' as <-. rewrite L in F'. injection F' as <-. apply I.
      destruct (read_decimal_fields _ _ _ _ _ (fun K => decimal_bytes_nonempty _ _ neg i f Hpos (proj1 (app_eq_nil _ _ K))) Hpos R) as (_ & _ & _).
      destruct U as (si & sf & N1 & N2 & Eu).
      assert (Dig : forall gs t, numerals gs t -> alldigits t).
      { induction gs as [|g gs IH]; intros t Ht; [cbn in Ht; subst t; constructor|]. destruct Ht as (p & q & Hp' & Hq & ->).
        apply Forall_app. split; [apply (numeral_digits _ _ Hp')|exact (IH _ Hq)]. }
      assert (Nsi : si <> []).
      { intros ->. unfold int_groups in N1. pose proof E as E'. apply N.eqb_neq in E'. rewrite E' in N1. destruct N1 as (p & q & Hp' & _ & K).
        symmetry in K. apply app_eq_nil in K as [-> _]. apply (proj2 (numeral_digits _ _ Hp')). reflexivity. }
      assert (Nt : number_text (si ++ (if scale =? 0 then [] else n2b 46 :: sf))).
      { destruct (scale =? 0).
        - exists si, []. rewrite !app_nil_r. split; [exact Nsi|]. split; [apply digits_is_dig; exact (Dig _ _ N1)|left; reflexivity].
        - exists si, sf. split; [exact Nsi|]. split; [rewrite forallb_app; apply andb_true_intro; split; apply digits_is_dig; [exact (Dig _ _ N1)|exact (Dig _ _ N2)]|right; reflexivity]. }
      destruct (Es neg _ Nt Eu) as [_ E4]. destruct T as (sj & Nj & Et). exists sj. split; [exact Nj|]. rewrite Eu, E4, Et. cbn [app]. reflexivity.
  Qed.

  Lemma text_right v bs u s : v = LVarString bs \/ v = LString bs -> literal v u = Ok s -> reads_as esc s [TkText bs] -> plain_text esc bs.
  Proof.
    intros Hv L R. assert (L2 : exists t, lit_string bs = Ok t /\ s = str "'" ++ t ++ str "'").
    { destruct Hv as [-> | ->]; cbn [sv_of_binlog rbind] in L; unfold param_text, to_sql_literal in L; cbn [sv_val new_varstring] in L;
        (destruct (lit_string bs) as [t| | |]; cbn [rmap rbind fst snd] in L; try discriminate; injection L as <-; exists t; split; reflexivity). }
    destruct L2 as (t & E & ->). exact (text_exact esc bs t E R).
  Qed.
  Lemma date_right y m d u s : y <= 9999 -> literal (LDate y m d) u = Ok s -> calendar_date y m d.
  Proof. intros Hy L. cbn [sv_of_binlog] in L. destruct (from_ymd y m d) as [nd| | |] eqn:E; try discriminate. exact (from_ymd_inv _ _ _ _ Hy E). Qed.
  Lemma datetime_right dec t u s : stored_datetime dec t -> literal (LDateTime t) u = Ok s -> reads_as esc s [TkText (text_datetime t)] ->
    calendar_date (dt_year t) (dt_month t) (dt_day t) /\ dt_micro t = 0.
  Proof.
    intros (_ & Hy & _ & _ & Hh & Hm & Hs & Hu & _) L R.
    assert (Hc : calendar_date (dt_year t) (dt_month t) (dt_day t)).
    { cbn [sv_of_binlog] in L. destruct (from_ymd _ _ _) as [nd| | |] eqn:E; try discriminate. exact (from_ymd_inv _ _ _ _ Hy E). }
    split; [exact Hc|]. destruct (datetime_fraction fmt_f32 fmt_f64 esc t u Hc Hh Hm Hs Hu) as (s' & E & R'). unfold literal_of in E. rewrite L in E. injection E as <-.
    pose proof (reads_unique _ _ _ _ R R') as K. injection K as K. unfold text_datetime, whole in K. cbn [dt_year dt_month dt_day dt_hour dt_minute dt_second dt_micro] in K.
    repeat apply app_inv_head in K. exact (text_fraction_0 _ Hu K).
  Qed.
  Lemma time_right dec t u s : stored_time dec t -> t_neg t = true -> t_micro t <> 0 -> dec <= 4 ->
    literal (LTime (mk_time true (t_days t) (t_hour t) (t_minute t) (t_second t) (t_micro t + borrow_error dec))) u = Ok s ->
    ~ reads_as esc s [TkText (text_time (if t_micro t =? 0 then 0 else 6) t)].
  Proof.
    intros Hst Hneg Hz Hd L R.
    assert (H6 : stored_time 6 t).
    { destruct Hst as (A1 & A2 & A3 & A4 & A5 & A6 & A7 & A8). unfold stored_time. split; [lia|]. do 5 (split; [assumption|]). split; [change (10 ^ (6 - 6)) with 1; apply N.mod_1_r|assumption]. }
    destruct (time_literal esc t H6) as (s1 & L1 & Es1 & R1). rewrite <- Es1 in R.
    set (t' := mk_time _ _ _ _ _ _) in L. cbn [sv_of_binlog rbind] in L. unfold param_text, to_sql_literal, new_mytime in L. cbn [sv_val] in L.
    destruct (lit_time t') as [s2| | |] eqn:L2; cbn [rmap rbind fst snd] in L; try discriminate. injection L as <-.
    assert (Sh : exists p, s1 = p ++ fmt_micro (t_micro t) /\ s2 = p ++ fmt_micro (t_micro t + borrow_error dec)).
    { unfold lit_time in L1, L2. subst t'. cbn [t_days t_hour t_minute t_second t_neg t_micro] in L2. rewrite Hneg in L1.
      destruct (_ || _)%bool; [discriminate|]. injection L1 as <-. injection L2 as <-. 
      set (h := if (100 <=? _)%Z then _ else _). exists ([n2b 45] ++ h ++ [n2b 58] ++ fmt_pad 2 (t_minute t) ++ [n2b 58] ++ fmt_pad 2 (t_second t)).
      split; rewrite <- !app_assoc; reflexivity. }
    destruct Sh as (p & E1 & E2).
    assert (Tb : Forall timebyte s2).
    { rewrite E2. assert (Ts : Forall timebyte s1) by (rewrite Es1; unfold text_time; destruct (t_neg t); destruct (t_micro t =? 0); cbn [N.eqb]; timebytes).
      rewrite E1 in Ts. apply Forall_app in Ts as [Tp _]. apply Forall_app. split; [exact Tp|]. unfold fmt_micro. destruct (t_micro t + borrow_error dec =? 0); [constructor|].
      constructor; [split; [split|]; discriminate|]. unfold fmt_pad. apply Forall_app. split.
      - apply Forall_forall. intros b Hb. apply repeat_spec in Hb. subst b. split; [split|]; discriminate.
      - destruct (fmt_n_numeral (t_micro t + borrow_error dec)) as (k & -> & _). apply digits_timebytes. }
    pose proof (reads_unique _ _ _ _ R (reads_timebytes esc s2 Tb)) as K. injection K as K. rewrite E1, E2 in K. apply app_inv_head in K.
    unfold fmt_micro in K. destruct (N.eqb_spec (t_micro t) 0); [contradiction|].
    assert (Hb : 10000000 <= borrow_error dec) by (unfold borrow_error; destruct (dec <=? 2); lia).
    destruct (N.eqb_spec (t_micro t + borrow_error dec) 0); [lia|]. injection K as K. apply (f_equal (@length byte)) in K.
    destruct H6 as (_ & _ & _ & _ & _ & H6 & _). rewrite fmt_pad_6, digits_length in K by exact H6.
    unfold fmt_pad in K. rewrite app_length in K. destruct (fmt_n_numeral (t_micro t + borrow_error dec)) as (k & Ek & Hk & _). rewrite Ek, digits_length in K.
    assert (Hk7 : (7 <= k)%nat).
    { destruct (Nat.le_gt_cases 7 k) as [?|Hlt]; [assumption|]. exfalso.
      assert (10 ^ N.of_nat (S k) <= 10 ^ 7) by (apply N.pow_le_mono_r; [discriminate|lia]). change (10 ^ 7) with 10000000 in *. lia. }
    lia.
  Qed.
  Lemma bit_right bs u s n : (length bs <= 8)%nat -> be_val bs = n -> literal (LBit bs) u = Ok s ->
    forall ts, value_tokens (VInt (Z.of_N n)) ts -> reads_as esc s ts -> rev bs = bs.
  Proof.
    intros Hl Hn L ts V R. destruct (bit_order fmt_f32 fmt_f64 esc bs u Hl) as (s' & ts' & E & V' & R'). unfold literal_of in E. rewrite L in E. injection E as <-.
    rewrite (reads_unique _ _ _ _ R R') in V. pose proof (vint_inj _ _ _ V V') as K. apply le_val_inj; [apply rev_length|]. unfold be_val in Hn. rewrite Hn. exact K.
  Qed.
  Lemma timestamp_read dec secs us v : secs < 2 ^ 32 -> dec <= 6 -> (forall rest, read_binlog_value (MTimestamp dec) ((wbe 4 secs ++ frac_bytes dec us) ++ rest) = (Ok v, rest)) ->
    dec = 0 /\ v = LTimestamp secs.
  Proof.
    intros Hs Hd R. specialize (R []). rewrite timestamp_fraction_left in R by assumption. injection R as <- R. rewrite app_nil_r in R.
    split; [apply (frac_bytes_nil dec us Hd); exact R|reflexivity].
  Qed.

  Theorem comes_through ty u x bs : holds fmt_f32 fmt_f64 ty u x bs ->
    (exists m v s ts, type_desc ty = Some m /\ (forall rest, read_binlog_value m (bs ++ rest) = (Ok v, rest)) /\
       literal v u = Ok s /\ value_tokens x ts /\ reads_as esc s ts) -> written fmt_f32 fmt_f64 esc ty u x bs.
  Proof.
    intros H (m & v & s & ts & D & R & L & V & Re). destruct H; cbn [type_desc] in D; try discriminate D; try (injection D as <-);
      try (econstructor; eassumption).
    - (* decimal *)
      cbn [value_tokens] in V. subst ts. pose proof (R []) as R0. cbn [read_binlog_value] in R0.
      destruct (N.ltb_spec prec scale); [lia|]. unfold pmap, pbind in R0. destruct (read_decimal _ _ _) as [[d| | |] r] eqn:Ed; try discriminate. injection R0 as <- ->.
      destruct (decimal_right prec scale neg i f s0 d u s ltac:(lia) H1 H2 Ed L H4 Re) as [E P]. apply wr_decimal; assumption.
    - (* date *)
      pose proof (value_decodes SDate _ _ _ [] (st_date y m0 d H H0 H1) I eq_refl) as R1. rewrite (R []) in R1. injection R1 as ->.
      apply wr_date. exact (date_right _ _ _ _ _ H L).
    - (* time *)
      destruct (t_neg t) eqn:En; [|apply wr_time; auto]. destruct (N.eq_dec (t_micro t) 0) as [E0|E0]; [apply wr_time; auto|].
      destruct (N.le_gt_cases 5 dec) as [E5|E5]; [apply wr_time; auto|]. exfalso.
      pose proof (R []) as R0. cbn [read_binlog_value] in R0. unfold pmap, pbind in R0. rewrite (time_neg_fraction dec t [] H En E0 ltac:(lia)) in R0. injection R0 as <-.
      cbn [value_tokens] in V. subst ts. exact (time_right dec t u s H En E0 ltac:(lia) L Re).
    - (* datetime *)
      pose proof (value_decodes (SDatetime dec) _ _ _ [] (st_datetime dec t H) I eq_refl) as R1. rewrite (R []) in R1. injection R1 as ->.
      cbn [value_tokens] in V. subst ts. destruct (datetime_right dec t u s H L Re) as [Hc Hu].
      destruct H as (A1 & A2 & A3 & A4 & A5 & A6 & A7 & A8 & A9). apply wr_datetime; assumption.
    - (* timestamp *)
      destruct H as (A1 & A2 & A3 & A4 & A5 & A6 & A7 & A8 & A9).
      destruct (timestamp_read dec (epoch_seconds t) (dt_micro t) v ltac:(lia) A1 R) as [-> _].
      cbn [frac_bytes]. rewrite app_nil_r. change (10 ^ (6 - 0)) with 1000000 in A9. rewrite N.mod_small in A9 by exact A8. apply wr_timestamp; assumption.
    - (* the zero timestamp *)
      exfalso. destruct (timestamp_read dec 0 0 v ltac:(reflexivity) H R) as [-> ->]. cbn [value_tokens] in V. subst ts.
      pose (t := mk_dt 1970 1 1 0 0 0 0).
      assert (Lg : logged fmt_f32 fmt_f64 u (LTimestamp 0) (VText (text_datetime t))).
      { change 0 with (epoch_seconds t) at 1. apply lg_timestamp; try reflexivity; try discriminate. vm_compute. repeat split; discriminate. }
      destruct (literal_reads fmt_f32 fmt_f64 esc u _ _ Lg I) as (sv & s1 & ts & E1 & E2 & V1 & R1).
      rewrite E1 in L. cbn [rbind] in L. rewrite E2 in L. injection L as ->. cbn [value_tokens] in V1. subst ts.
      pose proof (reads_unique _ _ _ _ Re R1) as K. vm_compute in K. discriminate K.
    - (* bit *)
      set (k := N.to_nat ((m0 + 7) / 8)) in *. assert (Hk : N.of_nat k = (m0 + 7) / 8) by apply N2Nat.id.
      assert (Hn : n < 2 ^ (8 * N.of_nat k)) by (eapply N.lt_le_trans; [exact H0|]; rewrite Hk; apply N.pow_le_mono_r; [discriminate|lia]).
      assert (Hl : N.of_nat (length (wbe k n)) = (m0 + 7) / 8) by (rewrite wbe_length; exact Hk).
      pose proof (value_decodes (SBit m0) _ _ _ [] (st_bit m0 (wbe k n) H Hl) I eq_refl) as R1. rewrite (R []) in R1. injection R1 as ->.
      apply wr_bit; [exact H|exact H0|reflexivity|]. apply (bit_right (wbe k n) u s n) with (ts := ts); try assumption; [rewrite wbe_length; lia|apply wbe_val; exact Hn].
    - pose proof (value_decodes (SVarchar max) _ _ _ [] (st_varchar max s0 H H0) I eq_refl) as R1. rewrite (R []) in R1. injection R1 as ->.
      cbn [value_tokens] in V. subst ts. apply wr_varchar; try assumption. exact (text_right _ _ _ _ (or_introl eq_refl) L Re).
    - pose proof (value_decodes (SChar len) _ _ _ [] (st_char len s0 H H0) I eq_refl) as R1. rewrite (R []) in R1. injection R1 as ->.
      cbn [value_tokens] in V. subst ts. apply wr_char; try assumption. exact (text_right _ _ _ _ (or_intror eq_refl) L Re).
    - specialize (R []). discriminate R.
  Qed.
  Theorem written_holds ty u x bs : written fmt_f32 fmt_f64 esc ty u x bs -> holds fmt_f32 fmt_f64 ty u x bs.
  Proof.
    intros H. destruct H; try (econstructor; eassumption).
    - destruct (ServerLogProofs.calendar_small fmt_f32 fmt_f64 _ _ _ H) as (A & B & C). apply hd_date; assumption.
    - destruct (ServerLogProofs.calendar_small fmt_f32 fmt_f64 _ _ _ H0) as (A & B & C). apply hd_datetime. unfold stored_datetime. rewrite H4.
      do 7 (split; [assumption|]). split; [reflexivity|]. apply N.mod_0_l, N.pow_nonzero. discriminate.
    - destruct (ServerLogProofs.calendar_small fmt_f32 fmt_f64 _ _ _ H) as (A & B & C). rewrite <- (app_nil_r (wbe 4 _)). apply (hd_timestamp _ _ u 0 t); try assumption.
      unfold stored_datetime. rewrite H4. split; [lia|]. do 6 (split; [assumption|]). split; reflexivity.
    - subst bs. apply hd_bit; assumption.
  Qed.
End Exact.
