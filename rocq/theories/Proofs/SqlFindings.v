(** * Where SQL literals and statements go wrong *)
From Coq Require Import Strings.String.
From Verif Require Import Model.Base Model.BytesParser Model.Utf8 Model.Bitmap Model.Flags Model.Auth Model.Fmt Model.Time Model.Decimal Model.Col
  Model.Row Model.Rows Model.Stmt Model.Transform
  Spec.Nums Spec.BitmapSpec Spec.Wire Spec.Temporal Spec.DecimalSpec Spec.SqlSpec
  Proofs.BaseLemmas Proofs.DecimalProofs Proofs.CalendarProofs Proofs.SqlProofs Proofs.SqlStmtProofs.
From Coq Require Import Lia.
Open Scope N_scope.

Section F.
Variables fmt_f32 fmt_f64 : N -> bytes.
Definition literal_of (v : binlog_value) (u : bool) : res bytes := rbind (sv_of_binlog v u) (param_text fmt_f32 fmt_f64).

Lemma push_char_val b : b2n b <? 128 = false -> b2n (n2b (192 + b2n b / 64)) = 192 + b2n b / 64 /\ b2n (n2b (128 + b2n b mod 64)) = 128 + b2n b mod 64.
Proof. intros H. pose proof (b2n_lt b). split; apply b2n_n2b_small; lia. Qed.
Lemma latin1_in c bs : In c (latin1 bs) -> b2n c < 128 -> In c bs.
Proof.
  unfold latin1. intros H K. apply in_flat_map in H as (b & Hb & H). destruct (b2n b <? 128) eqn:E.
  - destruct H as [<-|[]]. exact Hb.
  - destruct (push_char_val b E) as [E1 E2]. exfalso. destruct H as [<-|[<-|[]]]; lia.
Qed.
Lemma doubled_latin1 bs : flat_map (fun b => if Byte.eqb b (n2b 39) then [n2b 39; n2b 39] else push_char b) bs = doubled (latin1 bs).
Proof.
  change (n2b 39) with quote. induction bs as [|b bs IH]; [reflexivity|]. cbn [flat_map latin1]. fold (latin1 bs).
  unfold doubled in *. rewrite flat_map_app, <- IH. f_equal. unfold push_char. change 0x80 with 128.
  destruct (Byte.eqb b quote) eqn:E.
  - apply byte_eqb_eq in E. subst b. reflexivity.
  - destruct (b2n b <? 128) eqn:E2; cbn [flat_map].
    + rewrite E. reflexivity.
    + destruct (push_char_val b E2) as [E3 E4]. change 0xc0 with 192.
      rewrite !byte_eqb_neq; [reflexivity| |]; intros K; apply (f_equal b2n) in K; change (b2n quote) with 39 in K; lia.
Qed.
Lemma has_quote bs : In quote bs -> existsb (fun b => Byte.eqb b (n2b 39)) bs = true.
Proof. intros H. apply existsb_exists. exists quote. split; [exact H|apply byte_eqb_refl]. Qed.
Lemma no_quote bs : ~ In quote bs -> existsb (fun b => Byte.eqb b (n2b 39)) bs = false.
Proof.
  intros H. apply not_true_iff_false. intros E. apply existsb_exists in E as (b & Hb & E). apply byte_eqb_eq in E. subst b. contradiction.
Qed.
Lemma lit_quoted bs : In quote bs -> lit_string bs = Ok (doubled (latin1 bs)).
Proof. intros H. unfold lit_string. rewrite has_quote by exact H. cbn [negb]. rewrite doubled_latin1. reflexivity. Qed.
Lemma lit_unquoted bs : ~ In quote bs -> lit_string bs = if utf8_valid bs then Ok bs else Panic PUnwrap.
Proof. intros H. unfold lit_string. rewrite no_quote by exact H. reflexivity. Qed.
Lemma literal_string bs u : literal_of (LVarString bs) u = rmap (fun s => str "'" ++ s ++ str "'") (lit_string bs).
Proof. unfold literal_of, param_text, to_sql_literal. cbn [sv_of_binlog rbind sv_val new_varstring]. destruct (lit_string bs); reflexivity. Qed.

Theorem text_with_quote esc bs u : In quote bs -> (esc = true -> ~ In backslash bs) ->
  exists s, literal_of (LVarString bs) u = Ok s /\ reads_as esc s [TkText (latin1 bs)].
Proof.
  intros Hq Hb. rewrite literal_string, lit_quoted by exact Hq. eexists. split; [reflexivity|]. apply reads_text.
  intros E. apply no_backslash_kept. intros K. apply (Hb E). apply latin1_in; [exact K|reflexivity].
Qed.
Theorem latin1_differs bs : (exists b, In b bs /\ 128 <= b2n b) -> latin1 bs <> bs.
Proof.
  intros H E. apply (f_equal (@length byte)) in E.
  assert (L : forall l, (length l <= length (latin1 l))%nat).
  { induction l as [|b l IH]; [cbn; lia|]. cbn [latin1 flat_map]. fold (latin1 l). rewrite app_length. destruct (b2n b <? 128); cbn; lia. }
  destruct H as (b & Hb & H). apply in_split in Hb as (l1 & l2 & ->). unfold latin1 in E. rewrite flat_map_app in E. fold (latin1 l1) in E.
  cbn [flat_map] in E. fold (latin1 l2) in E. destruct (N.ltb_spec (b2n b) 128); [lia|]. rewrite !app_length in E. cbn [length] in E.
  pose proof (L l1). pose proof (L l2). lia.
Qed.
Lemma scan_tail bs rest : ~ In quote bs -> ~ In backslash bs -> ~ In quote rest -> scan_text true (bs ++ backslash :: quote :: rest) = None.
Proof.
  intros H1 H2 H3. induction bs as [|b bs IH].
  - cbn [app scan_text]. change (Byte.eqb backslash quote) with false. change (true && Byte.eqb backslash backslash) with true. cbv iota.
    enough (E : forall n l, (length l <= n)%nat -> ~ In quote l -> scan_text true l = None) by (rewrite (E (length rest)) by (lia || assumption); reflexivity).
    clear. induction n as [|n IH]; intros l Hn H; (destruct l as [|b l]; [reflexivity|]); [cbn in Hn; lia|]. cbn [length] in Hn. cbn [scan_text].
    rewrite byte_eqb_neq by (intros ->; apply H; left; reflexivity). destruct (true && Byte.eqb b backslash).
    + destruct l as [|c l]; [reflexivity|]. cbn [length] in Hn. rewrite IH; [reflexivity|lia|intros K; apply H; right; right; exact K].
    + rewrite IH; [reflexivity|lia|intros K; apply H; right; exact K].
  - cbn [app scan_text]. rewrite byte_eqb_neq by (intros ->; apply H1; left; reflexivity).
    rewrite (byte_eqb_neq b backslash) by (intros ->; apply H2; left; reflexivity). cbn [andb].
    rewrite IH; [reflexivity| |]; intros K; [apply H1|apply H2]; right; exact K.
Qed.
(** a text that ends in a backslash: the literal does not end *)
Theorem trailing_backslash bs u rest : utf8_valid (bs ++ [backslash]) = true -> ~ In quote bs -> ~ In backslash bs -> ~ In quote rest ->
  exists s, literal_of (LVarString (bs ++ [backslash])) u = Ok s /\ lex true (s ++ rest) = None.
Proof.
  intros Hu H1 H2 H3. rewrite literal_string, lit_unquoted, Hu.
  2: { rewrite in_app_iff. intros [K|[K|[]]]; [contradiction|discriminate]. }
  eexists. split; [reflexivity|]. rewrite <- !app_assoc.
  change (str "'" ++ bs ++ [backslash] ++ str "'" ++ rest) with (quote :: bs ++ backslash :: quote :: rest).
  unfold lex. cbn [length lex_from]. change (is_space quote) with false. cbv iota. unfold token_of. rewrite byte_eqb_refl, scan_tail by assumption. reflexivity.
Qed.
(** what follows [\'] in a text is read as SQL *)
Theorem injection payload u rest : Forall (fun b => b2n b < 128) payload -> ~ In quote payload -> payload <> [] ->
  exists s, literal_of (LVarString (backslash :: quote :: payload)) u = Ok s /\
    lex true (s ++ rest) = option_map (cons (TkText [quote])) (lex true (payload ++ str "'" ++ rest)).
Proof.
  intros Ha Hq Hn. rewrite literal_string, lit_quoted by (right; left; reflexivity). eexists. split; [reflexivity|].
  assert (E : latin1 (backslash :: quote :: payload) = backslash :: quote :: payload).
  { cbn [latin1 flat_map]. change (b2n backslash <? 128) with true. change (b2n quote <? 128) with true. cbn [app]. do 2 f_equal.
    fold (latin1 payload). clear - Ha. induction Ha as [|b l H _ IH]; [reflexivity|]. cbn [latin1 flat_map]. fold (latin1 l).
    rewrite (proj2 (N.ltb_lt _ _) H), IH. reflexivity. }
  rewrite E. cbn [doubled flat_map]. change (Byte.eqb backslash quote) with false. change (Byte.eqb quote quote) with true. cbn [app].
  fold (doubled payload). rewrite doubled_id by exact Hq. rewrite <- !app_assoc.
  cbn [app]. change (str "'" ++ backslash :: quote :: quote :: payload ++ str "'" ++ rest) with
    (quote :: backslash :: quote :: quote :: payload ++ str "'" ++ rest).
  destruct payload as [|b payload]; [contradiction|]. cbn [app].
  assert (Nb : Byte.eqb b quote = false) by (apply byte_eqb_neq; intros ->; apply Hq; left; reflexivity).
  assert (S : forall l, scan_text true (backslash :: quote :: quote :: b :: l) = Some ([quote], b :: l)) by (intros l; simpl; rewrite Nb; reflexivity).
  rewrite <- app_assoc. change (str "'" ++ backslash :: ?l) with (quote :: backslash :: l).
  apply lex_token; [reflexivity|]. unfold token_of. rewrite byte_eqb_refl, S. reflexivity.
Qed.
Theorem invalid_utf8 bs u : utf8_valid bs = false -> ~ In quote bs -> literal_of (LVarString bs) u = Panic PUnwrap.
Proof. intros Hu H. rewrite literal_string, lit_unquoted by exact H. rewrite Hu. reflexivity. Qed.

(** BIT: the bytes in the wrong order *)
Theorem bit_order esc bs u : (length bs <= 8)%nat -> exists s ts, literal_of (LBit bs) u = Ok s /\
  value_tokens (VInt (Z.of_N (le_val bs))) ts /\ reads_as esc s ts.
Proof.
  intros H. destruct (fmt_n_value esc (le_val bs)) as (ts & V & R). exists (fmt_n (le_val bs)), ts. split; [|split; assumption].
  unfold literal_of, param_text, to_sql_literal. cbn [sv_of_binlog rbind sv_val new_bit].
  change 0 with (N.of_nat 0) at 1. rewrite bit_loop; [|exact H|reflexivity]. cbn [rmap rbind fst snd].
  change (2 ^ (8 * N.of_nat 0)) with 1. rewrite N.mul_1_r, N.add_0_l. reflexivity.
Qed.
Theorem bit_wide bs u : (8 < length bs)%nat -> literal_of (LBit bs) u = Panic PArith.
Proof.
  intros H. assert (E : bs = firstn 8 bs ++ skipn 8 bs) by (symmetry; apply firstn_skipn).
  assert (L : length (firstn 8 bs) = 8%nat) by (rewrite firstn_length; lia).
  assert (K : forall l1 l2 i n, lit_bit_loop (l1 ++ l2) i n = rbind (lit_bit_loop l1 i n) (lit_bit_loop l2 (i + N.of_nat (length l1)))).
  { induction l1 as [|b l1 IH]; intros l2 i n; cbn [app lit_bit_loop length].
    - cbn [rbind]. f_equal. lia.
    - destruct (64 <=? N.shiftl i 3); [reflexivity|]. destruct (cadd _ _ _); cbn [rbind]; [|reflexivity|reflexivity|reflexivity].
      rewrite IH. replace (i + 1 + N.of_nat (length l1)) with (i + N.of_nat (S (length l1))) by lia. reflexivity. }
  unfold literal_of, param_text, to_sql_literal. cbn [sv_of_binlog rbind sv_val new_bit]. rewrite E, K, L.
  change 0 with (N.of_nat 0) at 1. rewrite bit_loop by (lia || reflexivity). cbn [rbind].
  destruct (skipn 8 bs) as [|b l] eqn:S; [apply (f_equal (@length byte)) in S; rewrite skipn_length in S; cbn in S; lia|]. reflexivity.
Qed.

(** DATETIME: the fraction is lost *)
Definition whole (t : my_datetime) : my_datetime := mk_dt (dt_year t) (dt_month t) (dt_day t) (dt_hour t) (dt_minute t) (dt_second t) 0.
Theorem datetime_fraction esc t u : calendar_date (dt_year t) (dt_month t) (dt_day t) ->
  dt_hour t < 24 -> dt_minute t < 60 -> dt_second t < 60 -> dt_micro t < 1000000 ->
  exists s, literal_of (LDateTime t) u = Ok s /\ reads_as esc s [TkText (text_datetime (whole t))].
Proof.
  intros Hc Hh Hm Hs Hu. destruct (datetime_literal esc (whole t) Hc Hh Hm Hs eq_refl) as (E & R). eexists. split; [|exact R].
  unfold literal_of. cbn [sv_of_binlog]. rewrite from_ymd_ok by exact Hc. cbn [rbind]. unfold and_hms_micro, valid_hms.
  assert (Hu' : dt_micro t < 2000000) by lia.
  rewrite (proj2 (N.ltb_lt _ _) Hh), (proj2 (N.ltb_lt _ _) Hm), (proj2 (N.ltb_lt _ _) Hs), (proj2 (N.ltb_lt _ _) Hu'). cbn [andb rmap rbind].
  unfold param_text, to_sql_literal, new_timestamp.
  cbn [sv_val rmap rbind fst snd ndt_date ndt_time nd_year nd_month nd_day nt_hour nt_minute nt_second].
  unfold whole in E. cbn [dt_year dt_month dt_day dt_hour dt_minute dt_second dt_micro] in E. rewrite E. reflexivity.
Qed.
Lemma from_ymd_bad y m d : ~ (1 <= m <= 12 /\ 1 <= d <= month_days y m) -> from_ymd y m d = Panic PUnwrap.
Proof.
  intros H. unfold from_ymd, valid_date. destruct (N.leb_spec 1 m); [|reflexivity]. destruct (N.leb_spec m 12); [|reflexivity].
  rewrite month_len_days by lia. destruct (N.leb_spec 1 d); [|reflexivity]. destruct (N.leb_spec d (month_days y m)); [|reflexivity].
  exfalso. apply H. lia.
Qed.
Theorem zero_date y m d u : ~ (1 <= m <= 12 /\ 1 <= d <= month_days y m) -> literal_of (LDate y m d) u = Panic PUnwrap.
Proof. intros H. unfold literal_of. cbn [sv_of_binlog]. rewrite from_ymd_bad by exact H. reflexivity. Qed.
Theorem zero_datetime t u : ~ (1 <= dt_month t <= 12 /\ 1 <= dt_day t <= month_days (dt_year t) (dt_month t)) ->
  literal_of (LDateTime t) u = Panic PUnwrap.
Proof. intros H. unfold literal_of. cbn [sv_of_binlog]. rewrite from_ymd_bad by exact H. reflexivity. Qed.
Theorem geometry bs u : literal_of (LGeometry bs) u = Panic PUnimplemented.
Proof. reflexivity. Qed.

Lemma forall2_length {A B} (R : A -> B -> Prop) l l' : Forall2 R l l' -> length l = length l'.
Proof. induction 1; cbn; congruence. Qed.
Lemma no_keys ds xs l : cols_tokens ds xs l -> Forall (fun d => is_key d = false) ds -> keys_of l = [].
Proof.
  induction 1 as [|d x ts ds xs l _ _ IH]; intros F; [reflexivity|]. inversion F as [|? ? F1 F2]; subst.
  unfold keys_of in *. cbn [filter fst]. rewrite F1. apply IH. exact F2.
Qed.
Theorem delete_no_key esc db tbl r defs k xss : plain_name db -> plain_name tbl -> Forall (fun d => plain_name (cd_name d)) defs ->
  Forall (fun d => is_key d = false) defs -> first_present (length defs) k (r_present_bitmap r) ->
  Forall2 (fun row xs => row_means fmt_f32 fmt_f64 esc (firstn k defs) (firstn k row) xs) (r_rows r) xss ->
  exists q stmts, sql_from_delete db tbl r defs = Ok q /\ sql_list fmt_f32 fmt_f64 q = Ok stmts /\ length stmts = length (r_rows r) /\
    Forall (fun s => lex esc s = Some ([TkWord (str "DELETE"); TkWord (str "FROM")] ++ dotted db tbl ++ [TkWord (str "WHERE")])) stmts.
Proof.
  intros Hd Ht Hn Hk Hp Hr. destruct (delete_statements fmt_f32 fmt_f64 esc db tbl r defs k xss Hd Ht Hn Hp Hr) as (q & stmts & E1 & _ & E2 & F).
  exists q, stmts. split; [exact E1|]. split; [exact E2|].
  split; [rewrite <- (forall2_length _ _ _ F); symmetry; exact (forall2_length _ _ _ Hr)|].
  clear - F Hk. induction F as [|xs s xss stmts (l & C & L) _ IH]; constructor; [|exact IH].
  rewrite L. rewrite (no_keys _ _ _ C (firstn_Forall _ _ k Hk)). reflexivity.
Qed.
End F.

(** the literal of a TIME whose day count is out of MySQL's range *)
Lemma fmt_n_nonempty n : (1 <= length (fmt_n n))%nat.
Proof. destruct (fmt_n_numeral n) as (k & E & _). rewrite E. cbn [digits]. rewrite app_length. cbn [length]. lia. Qed.
Lemma fmt_padz_neg n : 0 < n -> fmt_padz 2 (- Z.of_N n) = n2b 45 :: fmt_n n.
Proof.
  intro H. unfold fmt_padz. replace (- Z.of_N n <? 0)%Z with true by (symmetry; apply Z.ltb_lt; lia).
  replace (Z.abs_N (- Z.of_N n)) with n by lia. unfold fmt_pad. pose proof (fmt_n_nonempty n).
  replace (2 - 1 - length (fmt_n n))%nat with O by lia. reflexivity.
Qed.
Lemma time_days k h : 0 < k -> k <= 89478485 -> h < 24 -> forall neg m s us, m < 60 -> s < 60 ->
  exists hs, numeral (24 * k - h) hs /\
  lit_time (mk_time neg (2 ^ 32 - k) h m s us) = Ok ((if neg then [n2b 45] else []) ++ [n2b 45] ++ hs ++ [n2b 58] ++ digits 2 m ++ [n2b 58] ++ digits 2 s ++ fmt_micro us).
Proof.
  intros Hk Hk2 Hh neg m s us Hm Hs. exists (fmt_n (24 * k - h)). split; [apply fmt_n_numeral|].
  unfold lit_time. cbn [t_days t_hour t_minute t_second t_micro t_neg].
  replace (to_signed 32 (trunc 32 (2 ^ 32 - k))) with (- Z.of_N k)%Z.
  2:{ unfold trunc. rewrite N.mod_small by (change (2 ^ 32) with 4294967296; lia). unfold to_signed.
      change (2 ^ 32) with 4294967296. change (2 ^ (32 - 1)) with 2147483648. 
      replace (4294967296 - k <? 2147483648) with false by (symmetry; apply N.ltb_ge; lia). lia. }
  replace (- Z.of_N k * 24 + Z.of_N h)%Z with (- Z.of_N (24 * k - h))%Z by lia.
  change (2 ^ 31)%Z with 2147483648%Z.
  replace (- Z.of_N k * 24 <? - (2147483648))%Z with false by (symmetry; apply Z.ltb_ge; lia).
  replace (2147483648 <=? - Z.of_N k * 24)%Z with false by (symmetry; apply Z.leb_gt; lia).
  replace (2147483648 <=? - Z.of_N (24 * k - h))%Z with false by (symmetry; apply Z.leb_gt; lia). cbn [orb].
  replace (100 <=? - Z.of_N (24 * k - h))%Z with false by (symmetry; apply Z.leb_gt; lia).
  rewrite fmt_padz_neg by lia. rewrite !fmt_pad_2 by (change (10 ^ 2) with 100; lia). reflexivity.
Qed.
Lemma time_overflow neg d h m s us : 89478486 <= d < 2 ^ 32 - 89478485 -> h < 24 -> lit_time (mk_time neg d h m s us) = Panic PArith.
Proof.
  intros Hd Hh. unfold lit_time. cbn [t_days t_hour t_minute t_second t_micro t_neg]. change (2 ^ 32) with 4294967296 in Hd.
  unfold trunc. change (2 ^ 32) with 4294967296. rewrite N.mod_small by lia. unfold to_signed. change (2 ^ 32) with 4294967296. change (2 ^ (32 - 1)) with 2147483648.
  change (2 ^ 31)%Z with 2147483648%Z. destruct (N.ltb_spec d 2147483648).
  - replace (2147483648 <=? Z.of_N d * 24)%Z with true by (symmetry; apply Z.leb_le; lia). rewrite orb_true_r. reflexivity.
  - match goal with |- (if (?a || _ || _)%bool then _ else _) = _ => replace a with true by (symmetry; apply Z.ltb_lt; lia) end. reflexivity.
Qed.
