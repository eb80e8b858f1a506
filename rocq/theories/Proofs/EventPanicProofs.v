(** * When the decoders of the greeting, of binlog events and of row events panic *)
From Coq Require Import Lia.
From Verif Require Import Model.Base Model.BytesParser Model.LenEnc Model.Utf8 Model.Flags Model.Bitmap Model.Packet Model.Cmd Model.Time Model.Decimal Model.Col
  Model.Row Model.Rows Model.Event Model.EventBody
  Spec.Nums Spec.Codec Spec.Wire Spec.BitmapSpec Spec.BinlogValues Spec.Decoders Spec.Catalogue
  Proofs.BaseLemmas Proofs.BytesParserProofs Proofs.CodecProofs Proofs.LenEncProofs Proofs.WireLemmas Proofs.PacketProofs Proofs.BitmapProofs
  Proofs.RowsProofs Proofs.LocalProofs Proofs.TotalProofs Proofs.PanicProofs.
Open Scope N_scope.

(** ** Row events *)

Lemma dle_val a : dle (length a) a = Some (le_val a, []).
Proof. induction a as [|b a IH]; [reflexivity|]. cbn [length dle le_val]. rewrite IH. reflexivity. Qed.
Lemma fixed_inv {A} k (p : parser A) (f : bytes -> A) : (forall a r, length a = k -> p (a ++ r) = (Ok (f a), r)) -> short_reads k p ->
  forall bs x r, p bs = (Ok x, r) -> exists a, bs = a ++ r /\ length a = k /\ x = f a.
Proof.
  intros P1 P2 bs x r E. destruct (cut k bs) as [C|(a & r' & -> & C)]; [rewrite (P2 _ C) in E; discriminate|].
  rewrite P1 in E by exact C. injection E as <- <-. exists a. auto.
Qed.
Lemma lenenc_inv bs l rest : read_len_enc_int bs = (Ok l, rest) -> forall n, lei_to_u64 l = Some n ->
  exists w, bs = w ++ rest /\ dlenenc w = Some (n, []) /\ (forall m, lei_to_u32 l = Some m -> m = n mod 2 ^ 32).
Proof.
  unfold read_len_enc_int. intros H n Hn. destruct bs as [|b bs]; [discriminate|].
  apply pbind_inv in H. destruct H as (len & mid & H1 & H2). rewrite read_u8_cons in H1. injection H1 as <- <-.
  pose proof (b2n_lt b) as B.
  assert (D : forall a, dlenenc (b :: a) = if b2n b <? 251 then Some (b2n b, a) else if b2n b =? 252 then dle 2 a
    else if b2n b =? 253 then dle 3 a else if b2n b =? 254 then dle 8 a else None).
  { intros a. unfold dlenenc, dbind. cbn [dle]. rewrite N.mul_0_r, N.add_0_r.
    destruct (b2n b <? 251), (b2n b =? 252), (b2n b =? 253), (b2n b =? 254); reflexivity. }
  destruct (N.eqb_spec (b2n b) 0xfb) as [E|E]; [injection H2 as <- <-; discriminate|].
  destruct (N.eqb_spec (b2n b) 0xfc) as [E2|E2].
  { apply pmap_inv in H2. destruct H2 as (x & H2 & <-). cbn in Hn. injection Hn as ->.
    apply (fixed_inv 2 read_le_u16 le_val) in H2; [|intros; apply read_le_u16_spec; assumption|apply short_reads_all].
    destruct H2 as (a & -> & La & ->). exists (b :: a). split; [reflexivity|]. rewrite D, E2.
    change (252 <? 251) with false. change (252 =? 252) with true. cbv iota. rewrite <- La, dle_val. split; [reflexivity|].
    intros m Hm. injection Hm as <-. pose proof (le_val_bound a) as U. rewrite La in U. change (256 ^ N.of_nat 2) with 65536 in U.
    rewrite N.mod_small; [reflexivity|]. change (2 ^ 32) with 4294967296. lia. }
  destruct (N.eqb_spec (b2n b) 0xfd) as [E3|E3].
  { apply pmap_inv in H2. destruct H2 as (x & H2 & <-). cbn in Hn. injection Hn as ->.
    apply (fixed_inv 3 read_le_u24 le_val) in H2; [|intros; apply read_le_u24_spec; assumption|apply short_reads_all].
    destruct H2 as (a & -> & La & ->). exists (b :: a). split; [reflexivity|]. rewrite D, E3.
    change (253 <? 251) with false. change (253 =? 252) with false. change (253 =? 253) with true. cbv iota. rewrite <- La, dle_val. split; [reflexivity|].
    intros m Hm. injection Hm as <-. pose proof (le_val_bound a) as U. rewrite La in U. change (256 ^ N.of_nat 3) with 16777216 in U.
    rewrite N.mod_small; [reflexivity|]. change (2 ^ 32) with 4294967296. lia. }
  destruct (N.eqb_spec (b2n b) 0xfe) as [E4|E4].
  { apply pmap_inv in H2. destruct H2 as (x & H2 & <-). cbn in Hn. injection Hn as ->.
    apply (fixed_inv 8 read_le_u64 le_val) in H2; [|intros; apply read_le_u64_spec; assumption|apply short_reads_all].
    destruct H2 as (a & -> & La & ->). exists (b :: a). split; [reflexivity|]. rewrite D, E4.
    change (254 <? 251) with false. change (254 =? 252) with false. change (254 =? 253) with false. change (254 =? 254) with true. cbv iota.
    rewrite <- La, dle_val. split; [reflexivity|]. intros m Hm. injection Hm as <-. reflexivity. }
  destruct (N.eqb_spec (b2n b) 0xff) as [E5|E5]; [injection H2 as <- <-; discriminate|].
  injection H2 as <- <-. cbn in Hn. injection Hn as <-. exists [b]. split; [reflexivity|]. rewrite D.
  destruct (N.ltb_spec (b2n b) 251); [|lia]. split; [reflexivity|]. intros m Hm. injection Hm as <-.
  rewrite N.mod_small; [reflexivity|]. change (2 ^ 32) with 4294967296. lia.
Qed.
(** marking the NULL columns never fails *)
Definition cells_of (nb : bytes) := fix go (i : nat) (fl : list bool) : list cell :=
  match fl with
  | [] => []
  | true :: fl => (if bit nb i then CNull else CVal LNull []) :: go (S i) fl
  | false :: fl => CAbsent :: go i fl
  end.
Lemma cells_length nb : forall fl i, length (cells_of nb i fl) = length fl.
Proof. induction fl as [|[] fl IH]; intros i; cbn; rewrite ?IH; reflexivity. Qed.
Lemma cells_present nb : forall fl i k, is_present (nth k (cells_of nb i fl) CAbsent) = nth k fl false.
Proof. induction fl as [|[] fl IH]; intros i [|k]; cbn [cells_of nth]; try reflexivity; try apply IH. destruct (bit nb i); reflexivity. Qed.
Lemma cells_filter nb : forall fl i, length (filter is_present (cells_of nb i fl)) = length (filter (fun b => b) fl).
Proof. induction fl as [|[] fl IH]; intros i; cbn [cells_of filter]; [reflexivity| |apply IH]. destruct (bit nb i); cbn [is_present length]; rewrite IH; reflexivity. Qed.
Lemma cells_null nb : forall fl i k, (k < length (filter is_present (cells_of nb i fl)))%nat ->
  bit nb (i + k) = nth k (map is_null (filter is_present (cells_of nb i fl))) false.
Proof.
  induction fl as [|[] fl IH]; intros i k L; cbn [cells_of filter] in *; [cbn in L; lia| |apply IH; exact L].
  assert (is_present (if bit nb i then CNull else CVal LNull []) = true) as P by (destruct (bit nb i); reflexivity).
  cbn [filter] in *. rewrite P in *. destruct k as [|k]; cbn [map nth].
  - rewrite Nat.add_0_r. destruct (bit nb i); reflexivity.
  - cbn [length] in L. rewrite <- IH by lia. f_equal. lia.
Qed.
Lemma mark_nulls_total fl nb cb : (forall k, (k < length fl)%nat -> bit cb k = nth k fl false) -> (length fl <= 8 * length cb)%nat ->
  (length (filter (fun b => b) fl) <= 8 * length nb)%nat ->
  exists cb', mark_nulls (length (filter (fun b => b) fl)) 0 0 nb cb = Ok cb' /\ length cb' = length cb.
Proof.
  intros H L1 L2. destruct (mark_nulls_spec (cells_of nb 0 fl) 0 0 nb cb) as (cb' & E1 & E2 & _).
  - intros k Hk. rewrite cells_length in Hk. cbn [Nat.add]. rewrite cells_present. auto.
  - rewrite cells_length. exact L1.
  - intros k Hk. apply cells_null. exact Hk.
  - rewrite cells_filter. exact L2.
  - rewrite cells_filter in E1. exists cb'. auto.
Qed.

(** a loop to the end of the input *)
Lemma pwhile_panic {A} S (p : parser A) : upward S -> suffix_p p -> only S p ->
  forall n bs w, fst (pwhile n p bs) = Panic w -> S bs w.
Proof.
  intros U Hs Hp. induction n as [|n IH]; intros [|b bs] w H; try discriminate.
  cbn [pwhile] in H. specialize (Hp (b :: bs)). destruct (Hs (b :: bs)) as [u E]. unfold pbind in H.
  destruct (p (b :: bs)) as [[a|e|w'|] rest]; cbn [fst snd] in *; try discriminate.
  - specialize (IH rest). destruct (pwhile n p rest) as [[l|e|w'|] rest']; try discriminate.
    cbn [fst] in *. injection H as <-. rewrite E. apply U. apply IH. reflexivity.
  - injection H as <-. exact Hp.
Qed.
Lemma pwhile_ends {A} S (p : parser A) : suffix_p p -> only S p -> consumes p ->
  forall n bs, (length bs <= n)%nat -> fst (pwhile n p bs) <> Loop.
Proof.
  intros Hs Hp Hc. induction n as [|n IH]; intros [|b bs] L; try discriminate; [cbn in L; lia|].
  cbn [pwhile]. specialize (Hp (b :: bs)). specialize (Hc (b :: bs)). unfold pbind.
  destruct (p (b :: bs)) as [[a|e|w'|] rest]; cbn [fst snd] in *; try discriminate; [|contradiction].
  specialize (Hc a rest eq_refl). cbn [length] in *. specialize (IH rest ltac:(lia)).
  destruct (pwhile n p rest) as [[l|e|w'|] rest']; cbn [fst] in *; try discriminate. contradiction.
Qed.

(** one row image *)
Definition image_panics (metas : list column_meta) (n : N) (bs : bytes) (w : panic) : Prop :=
  (w = PIndex /\ N.of_nat (length metas) < n) \/ exists m tail, In m metas /\ final_part tail bs /\ value_panics m tail w.
Lemma image_up metas n : upward (image_panics metas n).
Proof.
  intros u t w [H|(m & tail & H1 & [fr ->] & H2)]; [left; exact H|right]. exists m, tail. split; [exact H1|]. split; [exists (u ++ fr); apply app_assoc|exact H2].
Qed.
Lemma only_value metas n m : In m metas -> only (image_panics metas n) (read_binlog_value m).
Proof.
  intros H bs. destruct (value_exact m bs) as [P L]. destruct (fst (read_binlog_value m bs)) as [a|e|w|]; auto.
  right. exists m, bs. split; [exact H|]. split; [exists []; reflexivity|]. apply P. reflexivity.
Qed.
Lemma only_log_cols metas nc bm : forall n i, (i + n <= 8 * length bm)%nat -> (i + n <= N.to_nat nc)%nat ->
  only (image_panics metas nc) (read_log_cols n i bm metas).
Proof.
  induction n as [|n IH]; intros i L1 L2; cbn [read_log_cols]; [apply only_free; pt|].
  rewrite bm_index_spec by lia. apply only_bind; [apply image_up|pt|apply only_free, np_in_pattern; left; eexists; reflexivity|].
  intros present. apply only_bind; [apply image_up|sx| |].
  - destruct present; [|apply only_free; pt]. destruct (nth_error metas i) as [m|] eqn:E.
    + apply only_value. eapply nth_error_In. exact E.
    + intros bs. left. split; [reflexivity|]. apply nth_error_None in E. lia.
  - intros v. apply only_bind; [apply image_up|sx|apply IH; lia|]. intros vs. apply only_free. pt.
Qed.
Definition flags_of (n : N) (bm : bytes) : list bool := map (bit bm) (seq 0 (N.to_nat n)).
Lemma flags_length n bm : length (flags_of n bm) = N.to_nat n.
Proof. unfold flags_of. rewrite map_length. apply seq_length. Qed.
Lemma flags_nth n bm k : (k < N.to_nat n)%nat -> nth k (flags_of n bm) false = bit bm k.
Proof. intros H. unfold flags_of. rewrite (nth_indep _ false (bit bm 0)) by (rewrite map_length, seq_length; exact H). rewrite map_nth, seq_nth by exact H. reflexivity. Qed.
Lemma count_present_bits n bm : (N.to_nat n <= 8 * length bm)%nat ->
  count_present n bm = Ok (length (filter (fun b => b) (flags_of n bm))).
Proof.
  intros H. unfold count_present. rewrite bm_to_iter_spec by lia. cbn [rmap rbind]. unfold bits_from, flags_of.
  do 3 f_equal. rewrite Nat.sub_0_r, firstn_map. f_equal.
  replace (8 * length bm)%nat with (N.to_nat n + (8 * length bm - N.to_nat n))%nat by lia.
  rewrite seq_app, firstn_app, seq_length, Nat.sub_diag, firstn_O, app_nil_r. apply firstn_all2. rewrite seq_length. lia.
Qed.
Lemma filter_none (l : list bool) : length (filter (fun b => b) l) = 0%nat -> forall k, nth k l false = false.
Proof. induction l as [|[] l IH]; intros H [|k]; try reflexivity; try discriminate. apply IH. exact H. Qed.
Lemma only_row_image metas n bm : n < 2 ^ 32 -> (N.to_nat n <= 8 * length bm)%nat ->
  only (image_panics metas n) (read_row_image n bm (length (filter (fun b => b) (flags_of n bm))) metas).
Proof.
  intros Hn L. unfold read_row_image. set (c := length (filter (fun b => b) (flags_of n bm))).
  intros bs. unfold pbind. destruct (read_len (N.shiftr (N.of_nat c + 7) 3) bs) as [r rest] eqn:E.
  destruct (good_no_panic _ (good_read_len (N.shiftr (N.of_nat c + 7) 3)) bs) as [[nb Ha]|[e He]]; rewrite E in *; cbn [fst] in *; subst r; [|exact I].
  apply read_len_inv in E. destruct E as [-> El]. rewrite N.shiftr_div_pow2 in El. change (2 ^ 3) with 8 in El. unfold blen in El.
  destruct (mark_nulls_total (flags_of n bm) nb bm) as (cb & E1 & E2).
  { intros k Hk. rewrite flags_length in Hk. rewrite flags_nth by exact Hk. reflexivity. }
  { rewrite flags_length. exact L. }
  { fold c. lia. }
  fold c in E1. unfold plift. rewrite E1. 
  assert (only (image_panics metas n) (read_log_row n cb metas)) as O.
  { unfold read_log_row. apply only_bind; [apply image_up|pt| |].
    - apply only_free, np_in_pattern. unfold with_capacity. destruct (N.leb_spec (2 ^ 63) (40 * n)); [exfalso|left; eexists; reflexivity].
      change (2 ^ 32) with 4294967296 in Hn. change (2 ^ 63) with 9223372036854775808 in *. lia.
    - intros _. apply only_log_cols; [lia|lia]. }
  specialize (O rest). destruct (fst (read_log_row n cb metas rest)); auto. apply image_up. exact O.
Qed.
Lemma row_image_consumes metas n bm c : (0 < c)%nat -> consumes (read_row_image n bm c metas).
Proof.
  intros H bs a rest E. unfold read_row_image in E. apply pbind_inv in E. destruct E as (nb & mid & E1 & E2).
  apply read_len_inv in E1. destruct E1 as [-> El]. rewrite N.shiftr_div_pow2 in El. change (2 ^ 3) with 8 in El. unfold blen in El.
  match type of E2 with ?q mid = _ => assert (suffix_p q) as Sq by sx; destruct (Sq mid) as [u Eu] end.
  rewrite E2 in Eu. cbn [snd] in Eu. subst mid. rewrite !app_length. lia.
Qed.
Lemma n_cols_cases bs :
  (exists w v rest, bs = w ++ rest /\ dlenenc w = Some (v, []) /\ v mod 2 ^ 32 < 2 ^ 32 - 7 /\
     read_n_cols bs = (Ok (v mod 2 ^ 32, (v mod 2 ^ 32 + 7) / 8), rest)) \/
  (exists w v rest, bs = w ++ rest /\ dlenenc w = Some (v, []) /\ 2 ^ 32 - 7 <= v mod 2 ^ 32 /\
     fst (read_n_cols bs) = Panic PArith) \/
  (exists e, fst (read_n_cols bs) = Err e).
Proof.
  unfold read_n_cols, pbind. destruct (read_len_enc_int bs) as [r rest] eqn:E.
  assert (no_panic read_len_enc_int) as NP by pt. destruct (NP bs) as [[l Hl]|[e He]]; rewrite E in *; cbn [fst] in *; subst r; [|right; right; eexists; reflexivity].
  destruct (lei_to_u32 l) as [m|] eqn:E32; [|right; right; eexists; reflexivity].
  assert (exists n, lei_to_u64 l = Some n) as [n E64] by (destruct l; try discriminate; eexists; reflexivity).
  destruct (lenenc_inv _ _ _ E n E64) as (w & -> & D & M). specialize (M m E32). subst m. unfold pret, plift, cadd.
  change (2 ^ 32 - 7) with 4294967289. change (2 ^ 32) with 4294967296.
  destruct (N.leb_spec 4294967296 (n mod 4294967296 + 7)) as [L|L].
  - right. left. exists w, n, rest. split; [reflexivity|]. split; [exact D|]. split; [lia|reflexivity].
  - left. exists w, n, rest. split; [reflexivity|]. split; [exact D|]. split; [lia|].
    rewrite N.shiftr_div_pow2. reflexivity.
Qed.
Lemma csub_2 n : (n < 2 /\ csub n 2 = Panic PArith) \/ (2 <= n /\ csub n 2 = Ok (n - 2)).
Proof. unfold csub. destruct (N.ltb_spec n 2); [left|right]; split; auto. Qed.
Lemma read_len_cases k bs : (exists a rest, bs = a ++ rest /\ blen a = k /\ read_len k bs = (Ok a, rest)) \/ (exists e, fst (read_len k bs) = Err e).
Proof.
  destruct (read_len k bs) as [r rest] eqn:E. destruct (good_no_panic _ (good_read_len k) bs) as [[a Ha]|[e He]]; rewrite E in *; cbn [fst] in *; subst r.
  - left. apply read_len_inv in E as E2. destruct E2 as [-> El]. exists a, rest. auto.
  - right. eexists. reflexivity.
Qed.
Lemma image_payload metas n extra_len payload bs w : announces extra_len payload n bs ->
  forall rest, final_part rest bs -> image_panics metas n rest w -> row_event_panics extra_len payload metas w.
Proof.
  intros A rest [fr ->] [[-> L]|(m & tail & H1 & [fr2 ->] & H2)].
  - right. left. exists n, (fr ++ rest). split; [exact A|]. right. auto.
  - right. right. exists m, tail. split; [exact H1|]. split; [|exact H2].
    destruct A as (extra & x & v & _ & -> & _). exists (extra ++ x ++ fr ++ fr2). rewrite <- !app_assoc. reflexivity.
Qed.
Lemma none_of_count n bm : blen bm = (n + 7) / 8 -> length (filter (fun b => b) (flags_of n bm)) = 0%nat -> none_present n bm.
Proof.
  intros L H. split; [exact L|]. intros i Hi. rewrite <- (flags_nth n bm i Hi). apply filter_none. exact H.
Qed.
Lemma rows_cases extra_len metas payload :
  match fst (read_rows_v2 extra_len metas payload) with
  | Panic w => row_event_panics extra_len payload metas w
  | Loop => exists n bm more, announces extra_len payload n (bm ++ more) /\ none_present n bm /\ more <> []
  | _ => True
  end.
Proof.
  unfold read_rows_v2. unfold pbind at 1. unfold plift at 1. destruct (csub_2 extra_len) as [[L ->]|[L ->]]; [left; auto|].
  unfold pbind at 1. destruct (read_len_cases (extra_len - 2) payload) as [(extra & r1 & -> & Le & ->)|[e E]].
  2:{ destruct (read_len (extra_len - 2) payload) as [r x]. cbn [fst] in *. subst r. exact I. }
  unfold pbind at 1. destruct (n_cols_cases r1) as [(w & v & r2 & -> & D & Ln & ->)|[(w & v & r2 & -> & D & Ln & E)|[e E]]].
  2:{ destruct (read_n_cols (w ++ r2)) as [r x]. cbn [fst] in *. subst r. right. left. exists (v mod 2 ^ 32), r2. split.
      - exists extra, w, v. split; [unfold blen in Le; lia|]. auto.
      - left. auto. }
  2:{ destruct (read_n_cols r1) as [r x]. cbn [fst] in *. subst r. exact I. }
  set (n := v mod 2 ^ 32) in *.
  unfold pbind at 1. destruct (read_len_cases ((n + 7) / 8) r2) as [(bm & more & -> & Lb & ->)|[e E]].
  2:{ destruct (read_len ((n + 7) / 8) r2) as [r x]. cbn [fst] in *. subst r. exact I. }
  assert (announces extra_len (extra ++ w ++ bm ++ more) n (bm ++ more)) as A.
  { exists extra, w, v. split; [unfold blen in Le; lia|]. auto. }
  assert (N.to_nat n <= 8 * length bm)%nat as Lbm by (unfold blen in Lb; lia).
  assert (n < 2 ^ 32) as Hn by (apply N.mod_upper_bound; discriminate).
  unfold pbind at 1. unfold plift at 1. rewrite count_present_bits by exact Lbm.
  pose proof (only_row_image metas n bm Hn Lbm) as O.
  set (c := length (filter (fun b => b) (flags_of n bm))) in *.
  assert (suffix_p (read_row_image n bm c metas)) as Sx by sx.
  unfold pbind, while_remaining.
  pose proof (pwhile_panic _ _ (image_up metas n) Sx O (length more) more) as PP.
  destruct (pwhile (length more) (read_row_image n bm c metas) more) as [[rows|e|p|] rest] eqn:Ew; cbn [fst] in *; try exact I.
  - apply (image_payload metas n _ _ _ _ A more); [exists bm; reflexivity|]. apply PP. reflexivity.
  - exists n, bm, more. split; [exact A|]. destruct c as [|c'] eqn:Ec.
    + split; [apply none_of_count; assumption|]. intros ->. cbn in Ew. discriminate.
    + exfalso. apply (pwhile_ends _ _ Sx O (row_image_consumes metas n bm (S c') ltac:(lia)) (length more) more); [lia|].
      rewrite Ew. reflexivity.
Qed.
Lemma only_pair metas n bb ab c1 c2 : only (image_panics metas n) (read_row_image n bb c1 metas) ->
  only (image_panics metas n) (read_row_image n ab c2 metas) ->
  only (image_panics metas n) (before_row <- read_row_image n bb c1 metas ;; after_row <- read_row_image n ab c2 metas ;; pret (before_row, after_row)).
Proof.
  intros O1 O2. apply only_bind; [apply image_up|sx|exact O1|]. intros b. apply only_bind; [apply image_up|sx|exact O2|]. intros a. apply only_free. pt.
Qed.
Lemma pair_consumes metas n bb ab c1 c2 : (0 < c1 + c2)%nat ->
  consumes (before_row <- read_row_image n bb c1 metas ;; after_row <- read_row_image n ab c2 metas ;; pret (before_row, after_row)).
Proof.
  intros H. destruct c1 as [|c1].
  - intros bs x rest E. apply pbind_inv in E. destruct E as (b & mid & E1 & E2). apply pbind_inv in E2. destruct E2 as (a & mid2 & E2 & E3).
    injection E3 as _ <-. apply row_image_consumes in E2; [|lia].
    assert (suffix_p (read_row_image n bb 0 metas)) as Sx by sx. destruct (Sx bs) as [u Eu]. rewrite E1 in Eu. cbn [snd] in Eu. subst bs.
    rewrite app_length. lia.
  - apply consumes_bind; [apply row_image_consumes; lia|]. intros b. sx.
Qed.
Lemma update_rows_cases extra_len metas payload :
  match fst (read_update_rows extra_len metas payload) with
  | Panic w => row_event_panics extra_len payload metas w
  | Loop => exists n bb ab more, announces extra_len payload n (bb ++ ab ++ more) /\ none_present n bb /\ none_present n ab /\ more <> []
  | _ => True
  end.
Proof.
  unfold read_update_rows. unfold pbind at 1. unfold plift at 1. destruct (csub_2 extra_len) as [[L ->]|[L ->]]; [left; auto|].
  unfold pbind at 1. destruct (read_len_cases (extra_len - 2) payload) as [(extra & r1 & -> & Le & ->)|[e E]].
  2:{ destruct (read_len (extra_len - 2) payload) as [r x]. cbn [fst] in *. subst r. exact I. }
  unfold pbind at 1. destruct (n_cols_cases r1) as [(w & v & r2 & -> & D & Ln & ->)|[(w & v & r2 & -> & D & Ln & E)|[e E]]].
  2:{ destruct (read_n_cols (w ++ r2)) as [r x]. cbn [fst] in *. subst r. right. left. exists (v mod 2 ^ 32), r2. split.
      - exists extra, w, v. split; [unfold blen in Le; lia|]. auto.
      - left. auto. }
  2:{ destruct (read_n_cols r1) as [r x]. cbn [fst] in *. subst r. exact I. }
  set (n := v mod 2 ^ 32) in *.
  unfold pbind at 1. destruct (read_len_cases ((n + 7) / 8) r2) as [(bb & r3 & -> & Lb & ->)|[e E]].
  2:{ destruct (read_len ((n + 7) / 8) r2) as [r x]. cbn [fst] in *. subst r. exact I. }
  unfold pbind at 1. destruct (read_len_cases ((n + 7) / 8) r3) as [(ab & more & -> & La & ->)|[e E]].
  2:{ destruct (read_len ((n + 7) / 8) r3) as [r x]. cbn [fst] in *. subst r. exact I. }
  assert (announces extra_len (extra ++ w ++ bb ++ ab ++ more) n (bb ++ ab ++ more)) as A.
  { exists extra, w, v. split; [unfold blen in Le; lia|]. auto. }
  assert (N.to_nat n <= 8 * length bb)%nat as Lbm by (unfold blen in Lb; lia).
  assert (N.to_nat n <= 8 * length ab)%nat as Lam by (unfold blen in La; lia).
  assert (n < 2 ^ 32) as Hn by (apply N.mod_upper_bound; discriminate).
  unfold pbind at 1. unfold plift at 1. rewrite count_present_bits by exact Lbm.
  unfold pbind at 1. unfold plift at 1. rewrite count_present_bits by exact Lam.
  pose proof (only_pair metas n bb ab _ _ (only_row_image metas n bb Hn Lbm) (only_row_image metas n ab Hn Lam)) as O.
  set (c1 := length (filter (fun b => b) (flags_of n bb))) in *. set (c2 := length (filter (fun b => b) (flags_of n ab))) in *.
  set (step := before_row <- read_row_image n bb c1 metas ;; after_row <- read_row_image n ab c2 metas ;; pret (before_row, after_row)) in *.
  assert (suffix_p step) as Sx by (unfold step; sx).
  unfold pbind, while_remaining.
  pose proof (pwhile_panic _ _ (image_up metas n) Sx O (length more) more) as PP.
  destruct (pwhile (length more) step more) as [[rows|e|p|] rest] eqn:Ew; cbn [fst] in *; try exact I.
  - apply (image_payload metas n _ _ _ _ A more); [exists (bb ++ ab); apply app_assoc|]. apply PP. reflexivity.
  - exists n, bb, ab, more. split; [exact A|]. destruct (c1 + c2)%nat as [|c'] eqn:Ec.
    + split; [apply none_of_count; [assumption|fold c1; lia]|]. split; [apply none_of_count; [assumption|fold c2; lia]|]. intros ->. cbn in Ew. discriminate.
    + exfalso. apply (pwhile_ends _ _ Sx O (pair_consumes metas n bb ab c1 c2 ltac:(lia)) (length more) more); [lia|].
      rewrite Ew. reflexivity.
Qed.

(** ** The greeting *)
Lemma split_bytes k m (l : bytes) : length l = (k + m)%nat -> exists a b, l = a ++ b /\ length a = k /\ length b = m.
Proof. intros H. exists (firstn k l), (skipn k l). rewrite firstn_skipn, firstn_length, skipn_length. split; [reflexivity|lia]. Qed.
Definition hs_head : parser (N * bytes * N * N * N * N * N) :=
  connection_id <- read_le_u32 ;;
  data_1 <- read_len 8 ;;
  _ <- read_len 1 ;;
  cap_lower <- read_le_u16 ;;
  charset <- read_u8 ;;
  status <- read_le_u16 ;;
  cap_upper <- read_le_u16 ;;
  auth_len <- read_u8 ;;
  _ <- read_len 10 ;;
  pret (connection_id, data_1, cap_lower, charset, status, cap_upper, auth_len).
Lemma fixed_len k : fixed k (read_len (N.of_nat k)).
Proof.
  split.
  - intros a rest L. exists a. apply rd_len. unfold blen. lia.
  - intros bs L. unfold read_len. destruct (N.ltb_spec (blen bs) (N.of_nat k)) as [H|H]; [eexists _, _; reflexivity|]. unfold blen in H. lia.
Qed.
Lemma fixed_le k (p : parser N) : (forall a rest, length a = k -> p (a ++ rest) = (Ok (le_val a), rest)) -> short_reads k p -> fixed k p.
Proof. intros H S. apply (fixed_of _ _ le_val); assumption. Qed.
Lemma fixed_le_u32 : fixed 4 read_le_u32. Proof. apply fixed_le; [intros; apply read_le_u32_spec; assumption|apply short_reads_all]. Qed.
Lemma fixed_le_u16 : fixed 2 read_le_u16. Proof. apply fixed_le; [intros; apply read_le_u16_spec; assumption|apply short_reads_all]. Qed.
Lemma fixed_hs_head : fixed 31 hs_head.
Proof.
  apply (fixed_bind 4 27); [apply fixed_le_u32|intros]. apply (fixed_bind 8 19); [apply (fixed_len 8)|intros].
  apply (fixed_bind 1 18); [apply (fixed_len 1)|intros]. apply (fixed_bind 2 16); [apply fixed_le_u16|intros].
  apply (fixed_bind 1 15); [apply fixed_u8|intros]. apply (fixed_bind 2 13); [apply fixed_le_u16|intros].
  apply (fixed_bind 2 11); [apply fixed_le_u16|intros]. apply (fixed_bind 1 10); [apply fixed_u8|intros].
  apply (fixed_bind 10 0); [apply (fixed_len 10)|intros]. apply fixed_ret.
Qed.
Lemma hs_head_read fixed_ rest : length fixed_ = 31%nat -> exists cid d1 lo cs st up,
  hs_head (fixed_ ++ rest) = (Ok (cid, d1, lo, cs, st, up, b2n (nth 20 fixed_ x00)), rest) /\
  N.testbit lo 15 = N.testbit (b2n (nth 14 fixed_ x00)) 7.
Proof.
  intros L. do 31 (destruct fixed_ as [|? fixed_]; [discriminate|]). destruct fixed_; [|discriminate]. clear L.
  match goal with |- context [hs_head ([?b0; ?b1; ?b2; ?b3; ?c0; ?c1; ?c2; ?c3; ?c4; ?c5; ?c6; ?c7; ?f; ?l0; ?l1; ?cs; ?s0; ?s1; ?u0; ?u1; ?al; ?e0; ?e1; ?e2; ?e3; ?e4; ?e5; ?e6; ?e7; ?e8; ?e9] ++ rest)] =>
    exists (le_val [b0; b1; b2; b3]), [c0; c1; c2; c3; c4; c5; c6; c7], (le_val [l0; l1]), (b2n cs), (le_val [s0; s1]), (le_val [u0; u1]);
    assert (E1 : forall r, read_le_u32 (b0 :: b1 :: b2 :: b3 :: r) = (Ok (le_val [b0; b1; b2; b3]), r)) by (intros r; apply (read_le_u32_spec r [b0; b1; b2; b3]); reflexivity);
    assert (E2 : forall r, read_le_u16 (l0 :: l1 :: r) = (Ok (le_val [l0; l1]), r)) by (intros r; apply (read_le_u16_spec r [l0; l1]); reflexivity);
    assert (E3 : forall r, read_le_u16 (s0 :: s1 :: r) = (Ok (le_val [s0; s1]), r)) by (intros r; apply (read_le_u16_spec r [s0; s1]); reflexivity);
    assert (E4 : forall r, read_le_u16 (u0 :: u1 :: r) = (Ok (le_val [u0; u1]), r)) by (intros r; apply (read_le_u16_spec r [u0; u1]); reflexivity);
    assert (F8 : forall r, read_len 8 (c0 :: c1 :: c2 :: c3 :: c4 :: c5 :: c6 :: c7 :: r) = (Ok [c0; c1; c2; c3; c4; c5; c6; c7], r))
      by (intros r; apply (rd_len r [c0; c1; c2; c3; c4; c5; c6; c7] 8); reflexivity);
    assert (F1 : forall r, read_len 1 (f :: r) = (Ok [f], r)) by (intros r; apply (rd_len r [f] 1); reflexivity);
    assert (F10 : forall r, read_len 10 (e0 :: e1 :: e2 :: e3 :: e4 :: e5 :: e6 :: e7 :: e8 :: e9 :: r) = (Ok [e0; e1; e2; e3; e4; e5; e6; e7; e8; e9], r))
      by (intros r; apply (rd_len r [e0; e1; e2; e3; e4; e5; e6; e7; e8; e9] 10); reflexivity)
  end.
  split.
  - unfold hs_head. cbn [app nth]. unfold pbind. rewrite E1, F8, F1, E2, read_u8_cons, E3, E4, read_u8_cons, F10. reflexivity.
  - cbn [nth le_val]. rewrite !N.testbit_eqb. change (2 ^ 15) with 32768. change (2 ^ 7) with 128.
    fold (b2n b12) (b2n b13). pose proof (b2n_lt b12). apply (f_equal (fun n => n =? 1)). lia.
Qed.
Lemma secure_bit lo up : contains (from_bits_truncate all_capabilities (N.lor lo (N.shiftl up 16))) SECURE_CONNECTION = N.testbit lo 15.
Proof.
  unfold contains, from_bits_truncate. change SECURE_CONNECTION with (2 ^ 15). rewrite TimeProofs.land_bit, N.land_spec, N.lor_spec.
  rewrite N.shiftl_spec_low by lia. rewrite orb_false_r. change (N.testbit all_capabilities 15) with true. rewrite andb_true_r.
  destruct (N.testbit lo 15); reflexivity.
Qed.
Definition hs_tail (version : N) (server_version : bytes) (h : N * bytes * N * N * N * N * N) : parser initial_handshake :=
  let '(connection_id, data_1, cap_lower, charset, status, cap_upper, auth_len) := h in
  let capabilities := N.lor cap_lower (N.shiftl cap_upper 16) in
  let cap := from_bits_truncate all_capabilities capabilities in
  data_2 <- (if contains cap SECURE_CONNECTION
             then (d <- plift (csub auth_len 8) ;; read_len (N.max 13 d))
             else pret []) ;;
  plugin <- (if contains cap PLUGIN_AUTH
             then (apn <- read_until x00 false ;; plift (from_utf8 apn))
             else pret []) ;;
  pret (mk_hs version server_version connection_id data_1 charset status capabilities auth_len data_2 plugin).
Lemma handshake_eq version server rest : ~ In x00 server ->
  read_initial_handshake (version :: server ++ x00 :: rest) = pbind hs_head (hs_tail (b2n version) server) rest.
Proof.
  intros H. unfold read_initial_handshake. unfold pbind at 1. rewrite read_u8_cons. unfold pbind at 1. rewrite read_until_excl by exact H.
  unfold hs_head, hs_tail, pbind.
  repeat match goal with |- (let (r, rest) := ?x in _) = _ => destruct x as [[?|?|?|] ?]; try reflexivity end.
Qed.
Lemma greeting_exact bs : panics_exactly (fst (read_initial_handshake bs)) (fun w => w = PArith /\ short_auth_data bs).
Proof.
  apply exact_of.
  - intros w [-> (version & server & fx & post & -> & Hs & L & B & A)]. rewrite handshake_eq by exact Hs. unfold pbind.
    destruct (hs_head_read fx post L) as (cid & d1 & lo & cs & st & up & E & T). rewrite E.
    unfold hs_tail. cbv zeta. unfold pbind. rewrite secure_bit, T, B. unfold plift, csub.
    destruct (N.ltb_spec (b2n (nth 20 fx x00)) 8); [reflexivity|lia].
  - destruct bs as [|version bs]; [left; right; eexists; reflexivity|].
    destruct (read_until x00 false bs) as [r rest] eqn:E. destruct (good_no_panic _ (good_read_until x00 false) bs) as [[s Hs]|[e He]].
    2:{ left. right. exists e. unfold read_initial_handshake. unfold pbind at 1. rewrite read_u8_cons. unfold pbind at 1. rewrite E in *. cbn [fst] in He. subst r. reflexivity. }
    rewrite E in Hs. cbn [fst] in Hs. subst r. apply read_until_inv in E. destruct E as (server & Hn & -> & ->).
    rewrite handshake_eq by exact Hn. destruct (cut 31 rest) as [C|(fx & post & -> & C)].
    { left. right. destruct (bind_short 31 hs_head (hs_tail (b2n version) server) rest fixed_hs_head C) as (e & r & E). exists e. rewrite E. reflexivity. }
    destruct (hs_head_read fx post C) as (cid & d1 & lo & cs & st & up & E & T). unfold pbind. rewrite E.
    unfold hs_tail. cbv zeta. rewrite secure_bit, T. destruct (N.testbit (b2n (nth 14 fx x00)) 7) eqn:B.
    + destruct (N.ltb_spec (b2n (nth 20 fx x00)) 8) as [L|L].
      * right. exists PArith. split; [reflexivity|]. exists version, server, fx, post. auto.
      * left. apply no_panic_at. apply no_panic_bind; [apply no_panic_bind; [apply np_in_pattern|intros; pt]|intros; pt].
        unfold csub. destruct (N.ltb_spec (b2n (nth 20 fx x00)) 8); [lia|]. left. eexists. reflexivity.
    + left. apply no_panic_at. pt.
Qed.

(** ** Events *)
Lemma header_cases bs : (exists h rest, read_event_header bs = (Ok h, rest) /\ h_event_len h = announced_length bs /\ (19 <= length bs)%nat) \/
  (exists e, fst (read_event_header bs) = Err e).
Proof.
  destruct (np_header bs) as [[h Hh]|[e He]]; [left|right; eauto].
  destruct (read_event_header bs) as [r rest] eqn:E. cbn [fst] in Hh. subst r. exists h, rest. split; [reflexivity|].
  pose proof (header_len _ _ _ E) as L. split; [|lia].
  destruct (cut 13 bs) as [C|(a & r & -> & C)]; [lia|].
  unfold read_event_header in E. apply pbind_inv in E. destruct E as (h1 & mid & E1 & E2).
  apply pbind_inv in E2. destruct E2 as (np & mid2 & E2 & E3). apply pbind_inv in E3. destruct E3 as (fl & mid3 & E3 & E4).
  injection E4 as <- _. cbn [h_event_len]. clear E2 E3 mid2 mid3 L.
  destruct (split_bytes 4 9 a C) as (a1 & a2 & -> & L1 & L2). destruct (split_bytes 1 8 a2 L2) as (b1 & a3 & -> & L3 & L4).
  destruct (split_bytes 4 4 a3 L4) as (a4 & a5 & -> & L5 & L6). destruct b1 as [|b [|]]; try discriminate.
  unfold read_event_header_v1, pbind in E1. rewrite <- !app_assoc in E1. rewrite read_le_u32_spec in E1 by exact L1. cbn [app] in E1. rewrite read_u8_cons in E1.
  rewrite read_le_u32_spec in E1 by exact L5. rewrite read_le_u32_spec in E1 by exact L6. unfold plift in E1.
  destruct (event_type_of (b2n b)); try discriminate. injection E1 as <- _. cbn [h1_event_len]. unfold announced_length. f_equal.
  do 4 (destruct a1 as [|? a1]; [discriminate|]). destruct a1; [|discriminate].
  do 4 (destruct a4 as [|? a4]; [discriminate|]). destruct a4; [|discriminate].
  do 4 (destruct a5 as [|? a5]; [discriminate|]). destruct a5; [|discriminate]. reflexivity.
Qed.
Lemma read_len_returns k bs : returns (fst (read_len k bs)). Proof. apply (good_no_panic _ (good_read_len k)). Qed.
Lemma peek_step {A} (p : parser A) bs : ppeek p bs = (fst (p bs), bs). Proof. reflexivity. Qed.
Lemma parse_returns crc self v bs : (length bs < 13)%nat \/ (if p_checksum self then 23 else 19) <= announced_length bs ->
  returns (fst (parse_event crc self v bs)).
Proof.
  intros H. unfold parse_event.
  destruct (header_cases bs) as [(h & rest & E & Eh & L)|[e E]].
  - assert (B : (if p_checksum self then 23 else 19) <= h_event_len h) by (destruct H; [lia|congruence]).
    assert (C : exists r, fst ((if p_checksum self && v then check_checksum crc else pret tt) bs) = r /\ returns r /\
       snd ((if p_checksum self && v then check_checksum crc else pret tt) bs) = bs).
    { eexists. split; [reflexivity|]. destruct (p_checksum self) eqn:P; [|split; [left; eexists; reflexivity|reflexivity]].
      destruct v; [|split; [left; eexists; reflexivity|reflexivity]]. cbn [andb]. unfold check_checksum, pbind. rewrite peek_step, E. cbn [fst].
      rewrite peek_step. destruct (read_len_cases (h_event_len h) bs) as [(raw & r & -> & Lr & ->)|[e Ee]]; cbn [fst].
      - unfold plift at 1, csub. destruct (N.ltb_spec (blen raw) 4); [lia|]. unfold split_at. unfold plift.
        assert (no_panic read_le_u32) as NP by pt. destruct (NP (skipn (N.to_nat (blen raw - 4)) raw)) as [[x ->]|[x ->]]; [|split; [right; eexists; reflexivity|reflexivity]].
        destruct (_ =? _); (split; [|reflexivity]); [left|right]; eexists; reflexivity.
      - rewrite Ee. split; [right; eexists; reflexivity|reflexivity]. }
    destruct C as (r & C1 & C2 & C3).
    set (cs := if p_checksum self && v then check_checksum crc else pret tt) in *.
    unfold pbind at 1. destruct (cs bs) as [r' rest']. cbn [fst snd] in *. subst r' rest'.
    destruct C2 as [[u ->]|[e ->]]; [|right; eexists; reflexivity].
    unfold pbind at 1. rewrite E. unfold pbind at 1. unfold plift at 1, data_len, csub.
    destruct (N.ltb_spec (h_event_len h) 19) as [X|X]; [destruct (p_checksum self); lia|].
    unfold pbind at 1. destruct (read_len_cases (h_event_len h - 19) rest) as [(data & r & -> & Lr & ->)|[e Ee]].
    2:{ destruct (read_len (h_event_len h - 19) rest). cbn [fst] in *. subst. right. eexists. reflexivity. }
    destruct (p_checksum self).
    + unfold pbind, plift, csub. destruct (N.ltb_spec (blen data) 4); [lia|]. unfold pret. destruct (event_kind_of (h_type h)); left; eexists; reflexivity.
    + unfold pbind, pret. destruct (event_kind_of (h_type h)); left; eexists; reflexivity.
  - destruct (p_checksum self && v).
    + right. exists e. unfold pbind at 1. unfold check_checksum. unfold pbind at 1. rewrite peek_step, E. reflexivity.
    + right. exists e. unfold pbind at 1. unfold pret at 1. unfold pbind at 1. destruct (read_event_header bs). cbn [fst] in E. subst. reflexivity.
Qed.
Lemma skip_returns self bs : (length bs < 13)%nat \/ 19 <= announced_length bs -> returns (fst (skip_event self bs)).
Proof.
  intros H. unfold skip_event. unfold pbind at 1. destruct (header_cases bs) as [(h & rest & E & Eh & L)|[e E]].
  - rewrite E. unfold plift, data_len, csub. unfold pbind at 1. destruct (N.ltb_spec (h_event_len h) 19); [destruct H; lia|].
    apply no_panic_at. pt.
  - destruct (read_event_header bs). cbn [fst] in E. subst. right. eexists. reflexivity.
Qed.

(** ** Format descriptions *)
Lemma start_ok a server pad c rest : length a = 2%nat -> length (server ++ x00 :: pad) = 50%nat -> length c = 4%nat ->
  ~ In x00 server -> utf8_valid server = true ->
  exists st, read_start_data (a ++ (server ++ x00 :: pad) ++ c ++ rest) = (Ok st, rest).
Proof.
  intros La Lf Lc Hn Hu. eexists. unfold read_start_data, pbind. rewrite read_le_u16_spec by exact La.
  rewrite (rd_len (c ++ rest) (server ++ x00 :: pad)) by (unfold blen; rewrite Lf; reflexivity).
  unfold plift. rewrite read_until_excl by exact Hn. cbn [fst]. unfold from_utf8. rewrite Hu.
  rewrite read_le_u32_spec by exact Lc. reflexivity.
Qed.
Lemma start_inv bs st rest : read_start_data bs = (Ok st, rest) -> exists a server pad c,
  bs = a ++ (server ++ x00 :: pad) ++ c ++ rest /\ length a = 2%nat /\ length (server ++ x00 :: pad) = 50%nat /\ length c = 4%nat /\
  ~ In x00 server /\ utf8_valid server = true.
Proof.
  intros H. unfold read_start_data in H. apply pbind_inv in H. destruct H as (v & m1 & H1 & H).
  apply (fixed_inv 2 read_le_u16 le_val) in H1; [|intros; apply read_le_u16_spec; assumption|apply short_reads_all].
  destruct H1 as (a & -> & La & _). apply pbind_inv in H. destruct H as (field & m2 & H1 & H). apply read_len_inv in H1. destruct H1 as [-> Lf].
  apply pbind_inv in H. destruct H as (sv & m3 & H1 & H). unfold plift in H1. injection H1 as H1 ->.
  destruct (read_until x00 false field) as [r pad] eqn:E. cbn [fst] in H1. subst r. apply read_until_inv in E. destruct E as (server & Hn & -> & ->).
  apply pbind_inv in H. destruct H as (sv2 & m4 & H1 & H). unfold plift, from_utf8 in H1. destruct (utf8_valid server) eqn:U; [|discriminate]. injection H1 as <- <-.
  apply pbind_inv in H. destruct H as (ts & m5 & H1 & H). injection H as _ <-.
  apply (fixed_inv 4 read_le_u32 le_val) in H1; [|intros; apply read_le_u32_spec; assumption|apply short_reads_all].
  destruct H1 as (c & -> & Lc & _). exists a, server, pad, c. split; [reflexivity|]. unfold blen in Lf. repeat split; auto. lia.
Qed.
Lemma bget_nth r i : (i < length r)%nat -> bget r i = Ok (nth i r x00).
Proof. apply bget_ok. Qed.
Definition fde_rest (st : start_data) (header_length : N) : parser fde_data :=
  own <- (fun bs => (bget bs 14, bs)) ;;
  fde_post_header_len <- plift (csub (b2n own) 57) ;;
  remaining <- premaining ;;
  if remaining =? fde_post_header_len
  then
    post_header_lengths <- read_rest ;;
    pret (mk_fde (st_binlog_version st) (st_server_version st) (st_create_timestamp st) header_length
            post_header_lengths 0)
  else
    post_header_lengths <- split_to fde_post_header_len ;;
    checksum_flag <- read_u8 ;;
    pret (mk_fde (st_binlog_version st) (st_server_version st) (st_create_timestamp st) header_length
            post_header_lengths checksum_flag).
Lemma fde_eq st hl rest bs : read_start_data bs = (Ok st, hl :: rest) -> read_fde bs = fde_rest st (b2n hl) rest.
Proof. intros E. unfold read_fde. unfold pbind at 1. rewrite E. unfold pbind at 1. rewrite read_u8_cons. reflexivity. Qed.
Definition fde_rest_panics (r : bytes) (w : panic) : Prop :=
  (w = PIndex /\ (length r < 15)%nat) \/ (w = PArith /\ (15 <= length r)%nat /\ b2n (nth 14 r x00) < 57) \/
  (w = PIndex /\ (15 <= length r)%nat /\ 57 <= b2n (nth 14 r x00) /\ N.of_nat (length r) < b2n (nth 14 r x00) - 57).
Lemma fde_rest_exact st hl r : (exists w, fst (fde_rest st hl r) = Panic w /\ fde_rest_panics r w) \/
  (returns (fst (fde_rest st hl r)) /\ forall w, ~ fde_rest_panics r w).
Proof.
  unfold fde_rest, pbind. destruct (Nat.ltb_spec (length r) 15) as [L|L].
  { left. exists PIndex. rewrite bget_panic by lia. split; [reflexivity|]. left. auto. }
  rewrite bget_nth by lia. set (o := b2n (nth 14 r x00)). unfold plift, csub. destruct (N.ltb_spec o 57) as [O|O].
  { left. exists PArith. split; [reflexivity|]. right. left. auto. }
  unfold premaining. destruct (N.eqb_spec (blen r) (o - 57)) as [E|E].
  { right. split; [left; eexists; reflexivity|]. intros w [[_ X]|[(_ & _ & X)|(_ & _ & _ & X)]]; try fold o in X; unfold blen in E; lia. }
  unfold split_to. destruct (N.ltb_spec (blen r) (o - 57)) as [B|B].
  { left. exists PIndex. split; [reflexivity|]. right. right. unfold blen in B. auto. }
  right. split.
  - destruct (skipn (N.to_nat (o - 57)) r) as [|x y]; [right|left]; eexists; reflexivity.
  - intros w [[_ X]|[(_ & _ & X)|(_ & _ & _ & X)]]; try fold o in X; unfold blen in B; lia.
Qed.
Lemma fde_unfold bs w : fde_panics bs w <-> exists a server pad c hl r, bs = a ++ (server ++ x00 :: pad) ++ c ++ hl :: r /\
  length a = 2%nat /\ length (server ++ x00 :: pad) = 50%nat /\ length c = 4%nat /\ ~ In x00 server /\ utf8_valid server = true /\
  fde_rest_panics r w.
Proof.
  split.
  - intros H. destruct H as [a server pad c r La Lf Lc Hn Hu X|a server pad c r La Lf Lc Hn Hu X Y|a server pad c r La Lf Lc Hn Hu X Y Z];
      (destruct (split_bytes 4 1 c Lc) as (c1 & c2 & -> & L1 & L2); destruct c2 as [|hl [|]]; try discriminate;
       exists a, server, pad, c1, hl, r; split; [rewrite <- (app_assoc c1); reflexivity|]; repeat (split; [assumption|])).
    + left. auto.
    + right. left. auto.
    + right. right. auto.
  - intros (a & server & pad & c & hl & r & -> & La & Lf & Lc & Hn & Hu & [[-> X]|[(-> & X & Y)|(-> & X & Y & Z)]]);
      replace (c ++ hl :: r) with ((c ++ [hl]) ++ r) by (rewrite <- app_assoc; reflexivity);
      assert (length (c ++ [hl]) = 5)%nat by (rewrite app_length; cbn; lia).
    + apply fp_few; assumption. + apply fp_own; assumption. + apply fp_many; assumption.
Qed.
Lemma fde_exact bs : panics_exactly (fst (read_fde bs)) (fde_panics bs).
Proof.
  apply exact_of.
  - intros w H. apply fde_unfold in H. destruct H as (a & server & pad & c & hl & r & -> & La & Lf & Lc & Hn & Hu & P).
    destruct (start_ok a server pad c (hl :: r) La Lf Lc Hn Hu) as [st E]. rewrite (fde_eq _ _ _ _ E).
    destruct (fde_rest_exact st (b2n hl) r) as [(w' & E1 & E2)|[_ N]]; [|destruct (N w P)].
    rewrite E1. f_equal. destruct P as [[-> X]|[(-> & X & Y)|(-> & X & Y & Z)]], E2 as [[-> X']|[(-> & X' & Y')|(-> & X' & Y' & Z')]]; try reflexivity; lia.
  - destruct (read_start_data bs) as [r rest] eqn:E. destruct (np_start bs) as [[st Hs]|[e He]].
    2:{ rewrite E in He. cbn [fst] in He. subst r. left. right. exists e. unfold read_fde, pbind. rewrite E. reflexivity. }
    rewrite E in Hs. cbn [fst] in Hs. subst r. destruct rest as [|hl r].
    { left. right. eexists. unfold read_fde, pbind. rewrite E. reflexivity. }
    rewrite (fde_eq _ _ _ _ E). destruct (fde_rest_exact st (b2n hl) r) as [(w & E1 & E2)|[R _]]; [right|left; exact R].
    exists w. apply fde_unfold. apply start_inv in E. destruct E as (a & server & pad & c & -> & La & Lf & Lc & Hn & Hu).
    exists a, server, pad, c, hl, r. auto 10.
Qed.
(** the data part of an event *)
Definition event_data (bs : bytes) : bytes := firstn (N.to_nat (announced_length bs - 19)) (skipn 19 bs).
Lemma header_rest bs h rest : read_event_header bs = (Ok h, rest) -> rest = skipn 19 bs.
Proof.
  intros E. pose proof (header_len _ _ _ E) as L. destruct (tidy_suffix _ tidy_header bs) as [u Eu]. rewrite E in Eu. cbn [snd] in Eu. subst bs.
  rewrite app_length in L. rewrite skipn_app. replace (19 - length u)%nat with 0%nat by lia. rewrite skipn_all2 by lia. reflexivity.
Qed.
Lemma from_fde_only bs : match fst (from_fde_bytes bs) with
  | Panic w => (w = PArith /\ announced_length bs < 19) \/ fde_panics (event_data bs) w
  | Loop => False
  | _ => True
  end.
Proof.
  unfold from_fde_bytes. unfold pbind at 1. destruct (header_cases bs) as [(h & rest & E & Eh & L)|[e E]].
  2:{ destruct (read_event_header bs). cbn [fst] in E. subst. exact I. }
  rewrite E. unfold plift at 1, data_len, csub. unfold pbind at 1. destruct (N.ltb_spec (h_event_len h) 19) as [X|X].
  { left. split; [reflexivity|]. congruence. }
  unfold pbind at 1. destruct (read_len_cases (h_event_len h - 19) rest) as [(data & r & Er & Lr & ->)|[e Ee]].
  2:{ destruct (read_len (h_event_len h - 19) rest). cbn [fst] in *. subst. exact I. }
  assert (event_data bs = data) as Ed.
  { unfold event_data. rewrite <- Eh, <- (header_rest _ _ _ E), Er. unfold blen in Lr. rewrite firstn_app.
    replace (N.to_nat (h_event_len h - 19) - length data)%nat with 0%nat by lia. rewrite firstn_O, app_nil_r. apply firstn_all2. lia. }
  rewrite Ed. destruct (fde_exact data) as [P NL]. destruct (read_fde data) as [[d|e|w|] raw] eqn:Ef; cbn [fst] in *; unfold plift, pbind; try exact I.
  - destruct (fde_checksum_flag d =? 1); [|exact I]. destruct (blen raw <? 4); [exact I|].
    assert (no_panic read_le_u32) as NP by pt. destruct (NP raw) as [[x ->]|[x ->]]; exact I.
  - right. apply P. reflexivity.
  - contradiction.
Qed.

(** ** Table maps *)
Lemma np_cases {A} (p : parser A) : no_panic p -> forall bs, (exists a rest, p bs = (Ok a, rest)) \/ (exists e rest, p bs = (Err e, rest)).
Proof.
  intros NP bs. destruct (p bs) as [r rest] eqn:E. destruct (NP bs) as [[a Ha]|[e He]]; rewrite E in *; cbn [fst] in *; subst r; [left|right]; eauto.
Qed.
Ltac np_step :=
  unfold pbind at 1;
  match goal with |- context [match ?p ?bs with (_, _) => _ end] =>
    let H := fresh "NP" in assert (no_panic p) as H by pt;
    let a := fresh "a" in let r := fresh "r" in let e := fresh "e" in let E := fresh "E" in
    destruct (np_cases p H bs) as [(a & r & E)|(e & r & E)]; rewrite E; clear H; [|exact I] end.
Lemma column_meta_only ct bs w : fst (read_column_meta ct bs) = Panic w -> w = PUnimplemented /\ In ct [TTimestamp; TTime; TDateTime; TString].
Proof.
  destruct ct; cbn [read_column_meta]; intros H;
    try (let X := type of H in lazymatch X with fst (?p bs) = Panic w =>
      assert (no_panic p) as NP by pt; destruct (NP bs) as [[a E]|[e E]]; rewrite E in H; discriminate end);
    try (unfold ppanic in H; cbn [fst] in H; injection H as <-; split; [reflexivity|cbn; tauto]).
  split; [|cbn; tauto]. revert H. unfold pbind.
  assert (no_panic read_u8) as NP by pt. destruct (np_cases _ NP bs) as [(a & r & ->)|(e & r & ->)]; [|discriminate].
  destruct (np_cases _ NP r) as [(b & r' & ->)|(e & r' & ->)]; [|discriminate].
  assert (forall x : parser column_meta, (exists y, x = pret y) \/ x = ppanic PUnimplemented -> fst (x r') = Panic w -> w = PUnimplemented) as K.
  { intros x [[y ->]| ->] H; [discriminate|]. injection H as <-. reflexivity. }
  apply K. destruct (N.lor a 240) as [|q]; [right; reflexivity|].
  do 8 (destruct q as [q|q|]; try (right; reflexivity)); (left; eexists; reflexivity) || idtac.
Qed.
Lemma column_meta_noloop ct bs : fst (read_column_meta ct bs) <> Loop.
Proof.
  destruct ct; cbn [read_column_meta]; intros H;
    try (let X := type of H in lazymatch X with fst (?p bs) = Loop =>
      assert (no_panic p) as NP by pt; destruct (NP bs) as [[a E]|[e E]]; rewrite E in H; discriminate end);
    try discriminate.
  revert H. unfold pbind.
  assert (no_panic read_u8) as NP by pt. destruct (np_cases _ NP bs) as [(a & r & ->)|(e & r & ->)]; [|discriminate].
  destruct (np_cases _ NP r) as [(b & r' & ->)|(e & r' & ->)]; [|discriminate].
  destruct (N.lor a 240) as [|q]; [discriminate|].
  do 8 (destruct q as [q|q|]; try discriminate).
Qed.
Lemma unsupported_code b ct : column_type_of (b2n b) = Ok ct -> In ct [TTimestamp; TTime; TDateTime; TString] -> unsupported_column b.
Proof.
  unfold unsupported_column. destruct b; cbv; intros H; (discriminate || injection H as <-); intros [K|[K|[K|[K|[]]]]]; (discriminate || tauto).
Qed.
Lemma column_type_returns n : returns (column_type_of n).
Proof.
  unfold column_type_of.
  repeat match goal with |- returns (match ?x with _ => _ end) => destruct x end; try (left; eexists; reflexivity); right; eexists; reflexivity.
Qed.
Lemma metas_loop_only defs n : forall i bs, (i + n <= length defs)%nat -> match fst (read_column_metas_loop n i defs bs) with
  | Panic w => w = PUnimplemented /\ exists b, In b defs /\ unsupported_column b
  | Loop => False | _ => True end.
Proof.
  induction n as [|n IH]; intros i bs L; cbn [read_column_metas_loop]; [exact I|].
  unfold pbind at 1, plift at 1. rewrite bget_nth by lia. unfold pbind at 1, plift at 1.
  destruct (column_type_of (b2n (nth i defs x00))) as [ct|e|w|] eqn:Ec; try exact I;
    try (destruct (column_type_returns (b2n (nth i defs x00))) as [[x X]|[x X]]; rewrite X in Ec; discriminate).
  unfold pbind at 1. pose proof (column_meta_only ct bs) as O. pose proof (column_meta_noloop ct bs) as NL.
  destruct (read_column_meta ct bs) as [[m|e|w|] r]; cbn [fst] in *; try exact I.
  - unfold pbind at 1. pose proof (IH (S i) r ltac:(lia)) as J. destruct (read_column_metas_loop n (S i) defs r) as [[l|e|w|] r2]; cbn [fst] in *; exact J || exact I.
  - destruct (O w eq_refl) as [-> K]. split; [reflexivity|]. exists (nth i defs x00). split; [apply nth_In; lia|]. apply (unsupported_code _ _ Ec K).
  - congruence.
Qed.
Lemma read_len1 bs a r : read_len 1 bs = (Ok a, r) -> exists b, bs = b :: r.
Proof.
  intros E. apply read_len_inv in E. destruct E as [-> L]. unfold blen in L. destruct a as [|b [|]]; cbn [length] in L; try lia. exists b. reflexivity.
Qed.
Lemma read_u8_inv bs n r : read_u8 bs = (Ok n, r) -> exists b, bs = b :: r /\ n = b2n b.
Proof. destruct bs as [|b bs]; [discriminate|]. rewrite read_u8_cons. intros E. injection E as <- <-. exists b. auto. Qed.
Lemma raw_table_map_cases payload : N.of_nat (length payload) < 2 ^ 61 ->
  (exists raw rest, read_raw_table_map payload = (Ok raw, rest) /\ lists_columns payload (rtm_col_defs raw) /\
     rtm_col_cnt raw = N.of_nat (length (rtm_col_defs raw))) \/ exists e, fst (read_raw_table_map payload) = Err e.
Proof.
  intros Lp.
  assert (K : match read_raw_table_map payload with
    | (Ok raw, rest) => lists_columns payload (rtm_col_defs raw) /\ rtm_col_cnt raw = N.of_nat (length (rtm_col_defs raw))
    | (Err _, _) => True | _ => False end).
  2:{ destruct (read_raw_table_map payload) as [[raw|e|w|] rest]; try contradiction; [left; exists raw, rest; split; [reflexivity|exact K]|right; exists e; reflexivity]. }
  unfold read_raw_table_map. do 8 np_step. 
  apply read_u8_inv in E. destruct E as (n1 & -> & ->). apply read_len_inv in E0. destruct E0 as [-> L1]. apply read_len1 in E1. destruct E1 as (f1 & ->).
  apply read_u8_inv in E2. destruct E2 as (n2 & -> & ->). apply read_len_inv in E3. destruct E3 as [-> L2]. apply read_len1 in E4. destruct E4 as (f2 & ->).
  destruct (lei_to_u64 a5) as [cnt|] eqn:EL; [|discriminate E6]. injection E6 as <- <-.
  destruct (lenenc_inv _ _ _ E5 cnt EL) as (w & -> & D & _).
  do 4 np_step. apply read_len_inv in E. destruct E as [-> L3]. unfold pbind at 1, plift at 1, cadd.
  assert (N.of_nat (length (n1 :: a0 ++ f1 :: n2 :: a3 ++ f2 :: w ++ a ++ r)) < 2 ^ 61) as Lq by exact Lp.
  repeat (cbn [length] in Lq; rewrite ?app_length in Lq). unfold blen in L3. change (2 ^ 61) with 2305843009213693952 in Lq.
  change (2 ^ 64) with 18446744073709551616. destruct (N.leb_spec 18446744073709551616 (cnt + 7)) as [X|X]; [lia|].
  np_step. unfold pret. cbn [rtm_col_defs rtm_col_cnt].
  split; [|symmetry; exact L3]. exists n1, a0, f1, n2, a3, f2, w, r. split; [reflexivity|]. unfold blen in *. rewrite L3. auto.
Qed.
Lemma table_map_only d : N.of_nat (length (tmd_payload d)) < 2 ^ 61 -> match table_map_of d with
  | Panic w => w = PUnimplemented /\ exists cols code, lists_columns (tmd_payload d) cols /\ In code cols /\ unsupported_column code
  | Loop => False | _ => True end.
Proof.
  intros L. unfold table_map_of. destruct (raw_table_map_cases _ L) as [(raw & rest & E & LC & N)|[e E]].
  2:{ rewrite E. exact I. }
  rewrite E. cbn [fst rbind]. unfold table_map_of_raw, from_utf8.
  destruct (utf8_valid (rtm_schema_name raw)); cbn [rbind]; [|exact I]. destruct (utf8_valid (rtm_table_name raw)); cbn [rbind]; [|exact I].
  assert (N.of_nat (length (rtm_col_defs raw)) < 2 ^ 61) as Lc.
  { destruct LC as (n1 & s & f1 & n2 & t & f2 & c & r & EE & _). rewrite EE in L. cbn [length] in L. rewrite !app_length in L. cbn [length] in L.
    rewrite !app_length in L. cbn [length] in L. rewrite !app_length in L. lia. }
  unfold read_column_metas, pbind, plift, with_capacity. rewrite N. change (2 ^ 61) with 2305843009213693952 in Lc. change (2 ^ 63) with 9223372036854775808.
  destruct (N.leb_spec 9223372036854775808 (4 * N.of_nat (length (rtm_col_defs raw)))) as [X|X]; [lia|]. rewrite Nat2N.id.
  pose proof (metas_loop_only (rtm_col_defs raw) (length (rtm_col_defs raw)) 0 (rtm_col_meta_defs raw) ltac:(lia)) as M.
  destruct (read_column_metas_loop _ 0 (rtm_col_defs raw) (rtm_col_meta_defs raw)) as [[l|e|w|] r]; cbn [fst rbind] in *; try exact I; try exact M.
  destruct M as [-> (b & Hb & Hu)]. split; [reflexivity|]. exists (rtm_col_defs raw), b. auto.
Qed.

(** ** GTID sets *)
Definition alloc (bs : bytes) (w : panic) : Prop := w = PAlloc /\ huge_count bs.
Lemma alloc_up : upward alloc.
Proof. intros u t w [-> (f & c & r & -> & H)]. split; [reflexivity|]. exists (u ++ f), c, r. rewrite <- app_assoc. auto. Qed.
Lemma count_bind {A} (f : N -> parser A) :
  (forall n rest, match fst (f n rest) with Panic w => alloc rest w \/ (w = PAlloc /\ 2 ^ 57 <= n) | Loop => False | _ => True end) ->
  only alloc (pbind read_le_u64 f).
Proof.
  intros H bs. unfold pbind. destruct (cut 8 bs) as [C|(c & r & -> & C)].
  - assert (no_panic read_le_u64) as NP by pt. destruct (np_cases _ NP bs) as [(n & r & E)|(e & r & E)]; rewrite E; [|exact I].
    apply (fixed_inv 8 read_le_u64 le_val) in E; [|intros; apply read_le_u64_spec; assumption|apply short_reads_all].
    destruct E as (a & -> & L & _). rewrite app_length in C. lia.
  - rewrite read_le_u64_spec by exact C. specialize (H (le_val c) r). destruct (fst (f (le_val c) r)); auto.
    destruct H as [H|[-> H]]; [apply (alloc_up c r); exact H|]. split; [reflexivity|]. exists [], c, r. auto.
Qed.
Lemma suffix_repeat {A} n (p : parser A) : suffix_p p -> suffix_p (prepeat n p).
Proof.
  intros H. induction n as [|n IH]; cbn [prepeat]; [apply suffix_ret|]. apply suffix_bind; [exact H|]. intros a. apply suffix_bind; [exact IH|]. intros l. apply suffix_ret.
Qed.
Lemma only_repeat {A} S (p : parser A) n : upward S -> suffix_p p -> only S p -> only S (prepeat n p).
Proof.
  intros U Hs Hp. induction n as [|n IH]; cbn [prepeat]; [apply only_free; pt|].
  apply only_bind; [exact U|exact Hs|exact Hp|]. intros a. apply only_bind; [exact U|apply suffix_repeat; exact Hs|exact IH|].
  intros l. apply only_free. pt.
Qed.
Lemma capacity_cases k n : (k <= 64) -> with_capacity k n = Ok tt \/ (with_capacity k n = Panic PAlloc /\ 2 ^ 57 <= n).
Proof.
  intros Hk. unfold with_capacity. change (2 ^ 63) with 9223372036854775808. change (2 ^ 57) with 144115188075855872.
  destruct (N.leb_spec 9223372036854775808 (k * n)) as [L|L]; [right; split; [reflexivity|nia]|left; reflexivity].
Qed.
Lemma map_capacity_cases n : map_with_capacity n = Ok tt \/ (map_with_capacity n = Panic PAlloc /\ 2 ^ 57 <= n).
Proof.
  unfold map_with_capacity. destruct (N.leb_spec (2 ^ 61) n) as [L|L].
  { right. split; [reflexivity|]. change (2 ^ 61) with 2305843009213693952 in L. change (2 ^ 57) with 144115188075855872. lia. }
  destruct (N.leb_spec (2 ^ 63) (17 * 2 ^ N.log2_up (n * 8 / 7) + 16)) as [X|X]; [right|left; reflexivity]. split; [reflexivity|].
  destruct (N.ltb_spec n (2 ^ 57)) as [Y|Y]; [exfalso|exact Y].
  assert (n * 8 / 7 <= 2 ^ 58) as Q.
  { change (2 ^ 58) with 288230376151711744. change (2 ^ 57) with 144115188075855872 in Y. apply N.div_le_upper_bound; lia. }
  apply N.log2_up_le_mono in Q. rewrite N.log2_up_pow2 in Q by lia. apply (N.pow_le_mono_r 2) in Q; [|lia].
  change (2 ^ 63) with 9223372036854775808 in X. change (2 ^ 58) with 288230376151711744 in Q. lia.
Qed.
Lemma only_capacity {A} (c : N -> res unit) (k : N -> parser A) n rest :
  c n = Ok tt \/ (c n = Panic PAlloc /\ 2 ^ 57 <= n) -> only alloc (k n) ->
  match fst ((plift (c n) ;;; k n) rest) with Panic w => alloc rest w \/ (w = PAlloc /\ 2 ^ 57 <= n) | Loop => False | _ => True end.
Proof.
  intros H K. unfold pbind, plift. destruct H as [-> |[-> L]]; [|right; auto]. specialize (K rest). destruct (fst (k n rest)); auto.
Qed.
Lemma np_gtid_intervals n : forall last, no_panic (read_gtid_intervals n last).
Proof.
  induction n as [|n IH]; intros last; cbn [read_gtid_intervals]; [pt|]. apply no_panic_bind; [pt|]. intros s. apply no_panic_bind; [pt|]. intros e.
  destruct ((s <=? last) || (e <=? s)); [pt|]. apply no_panic_bind; [apply IH|]. intros; pt.
Qed.
Lemma only_gtid_range : only alloc read_gtid_range.
Proof.
  unfold read_gtid_range. apply only_bind; [apply alloc_up|sx|apply only_free; pt|]. intros sid. apply count_bind. intros n rest.
  apply (only_capacity (with_capacity 16) (fun n => l <- read_gtid_intervals (N.to_nat n) 0 ;; pret (mk_gtid_range sid l))).
  - apply capacity_cases. lia.
  - apply only_free. apply no_panic_bind; [apply np_gtid_intervals|]. intros; pt.
Qed.
Lemma suffix_gtid_range : suffix_p read_gtid_range.
Proof. apply tidy_suffix. unfold read_gtid_range. td. Qed.
Lemma gtid_set_only : only alloc read_gtid_set.
Proof.
  unfold read_gtid_set. apply count_bind. intros n rest.
  apply (only_capacity map_with_capacity (fun n => l <- prepeat (N.to_nat n) read_gtid_range ;; pret (fold_left (fun m r => map_insert m (gr_sid r) r) l []))).
  - apply map_capacity_cases.
  - assert (suffix_p (prepeat (N.to_nat n) read_gtid_range)) by (apply suffix_repeat; apply suffix_gtid_range).
    apply only_bind; [apply alloc_up|assumption|apply only_repeat; [apply alloc_up|apply suffix_gtid_range|apply only_gtid_range]|].
    intros l. apply only_free. pt.
Qed.
Lemma only_sid_range : only alloc read_sid_range.
Proof.
  unfold read_sid_range. apply only_bind; [apply alloc_up|sx|apply only_free; pt|]. intros sid. apply count_bind. intros n rest.
  apply (only_capacity (with_capacity 16) (fun n => l <- prepeat (N.to_nat n) (start <- read_le_i64 ;; end_ <- read_le_i64 ;; pret (start, end_)) ;; pret (mk_sid sid l))).
  - apply capacity_cases. lia.
  - apply only_free. apply no_panic_bind; [apply no_panic_repeat; pt|]. intros; pt.
Qed.
Lemma suffix_sid_range : suffix_p read_sid_range.
Proof. apply tidy_suffix. unfold read_sid_range. td. Qed.
Lemma only_sid_data : only alloc read_sid_data.
Proof.
  unfold read_sid_data. apply count_bind. intros n rest. apply (only_capacity (with_capacity 40) (fun n => prepeat (N.to_nat n) read_sid_range)).
  - apply capacity_cases. lia.
  - apply only_repeat; [apply alloc_up|apply suffix_sid_range|apply only_sid_range].
Qed.
Lemma dump_gtid_only : only alloc read_binlog_dump_gtid.
Proof.
  unfold read_binlog_dump_gtid. apply only_bind; [apply alloc_up|sx|apply only_free; pt|]. intros cmd.
  apply only_bind; [apply alloc_up|sx|apply only_free; pt|]. intros flags.
  destruct (from_bits all_gtid_flags flags) as [fl|]; [|apply only_free; pt].
  do 6 (apply only_bind; [apply alloc_up|sx|apply only_free; pt|]; intros ?).
  intros bs. unfold pbind at 1. destruct (read_len_cases a4 bs) as [(raw & rest & -> & L & ->)|[e E]].
  2:{ destruct (read_len a4 bs). cbn [fst] in *. subst. exact I. }
  unfold pbind, plift. pose proof (only_sid_data raw) as O. destruct (read_sid_data raw) as [[l|e|w|] r]; cbn [fst] in *; try exact I; try exact O.
  destruct O as [-> (f & c & r2 & -> & H)]. split; [reflexivity|]. exists f, c, (r2 ++ rest). split; [rewrite <- !app_assoc; reflexivity|exact H].
Qed.

(** ** LOAD events *)
Definition total (lens : bytes) : N := fold_right (fun l sum => b2n l + sum) 0 lens.
Lemma sum_u32_spec lens : forall acc, acc < 2 ^ 32 -> sum_u32 acc lens = if 2 ^ 32 <=? acc + total lens then Panic PArith else Ok (acc + total lens).
Proof.
  induction lens as [|l lens IH]; intros acc Ha; cbn [sum_u32 total fold_right].
  - destruct (N.leb_spec (2 ^ 32) (acc + 0)); [lia|]. f_equal. lia.
  - fold (total lens). unfold cadd. destruct (N.leb_spec (2 ^ 32) (acc + b2n l)) as [X|X]; cbn [rbind].
    + destruct (N.leb_spec (2 ^ 32) (acc + (b2n l + total lens))); [reflexivity|lia].
    + rewrite IH by exact X. rewrite !N.add_assoc. reflexivity.
Qed.
Lemma np_until_nul s : returns (until_nul s).
Proof. unfold until_nul. assert (no_panic (read_until x00 false)) as NP by pt. apply NP. Qed.
Lemma np_lift {A} (r : res A) : returns r -> no_panic (plift r).
Proof. intros [[a ->]|[e ->]] bs; [left|right]; eexists; reflexivity. Qed.
Lemma load_names_exact t s n bs : panics_exactly (fst (read_load_names t s n bs))
  (fun w => w = PArith /\ exists lens rest, bs = lens ++ rest /\ N.of_nat (length lens) = n /\ 2 ^ 32 <= total lens + n).
Proof.
  unfold read_load_names. unfold pbind at 1. destruct (read_len_cases n bs) as [(lens & rest & -> & L & ->)|[e E]].
  2:{ destruct (read_len n bs) as [r x] eqn:E2. cbn [fst] in *. subst r. apply exact_free; [|right; eexists; reflexivity].
      intros w [_ (lens & rest & -> & L & _)]. rewrite rd_len in E2 by (unfold blen; symmetry; exact L). discriminate. }
  unfold blen in L. unfold pbind at 1, plift at 1. rewrite sum_u32_spec by reflexivity. rewrite N.add_0_l.
  assert (forall w, (w = PArith /\ exists l r, lens ++ rest = l ++ r /\ N.of_nat (length l) = n /\ 2 ^ 32 <= total l + n) <-> w = PArith /\ 2 ^ 32 <= total lens + n) as Q.
  { intros w. split; intros [-> H]; (split; [reflexivity|]).
    - destruct H as (l & r & E & Ll & H). assert (lens = l) as -> by (apply (f_equal (firstn (N.to_nat n))) in E; rewrite !firstn_app in E;
        replace (N.to_nat n - length lens)%nat with 0%nat in E by lia; replace (N.to_nat n - length l)%nat with 0%nat in E by lia;
        rewrite !firstn_O, !app_nil_r, !firstn_all2 in E by lia; exact E). exact H.
    - exists lens, rest. auto. }
  assert (forall r : res (bytes * bytes * bytes * bytes * bytes), panics_exactly r (fun w => w = PArith /\ 2 ^ 32 <= total lens + n) ->
    panics_exactly r (fun w => w = PArith /\ exists l r, lens ++ rest = l ++ r /\ N.of_nat (length l) = n /\ 2 ^ 32 <= total l + n)) as QQ.
  { intros r [P NL]. split; [|exact NL]. intros w. rewrite P. symmetry. apply Q. }
  apply QQ. destruct (N.leb_spec (2 ^ 32) (total lens)) as [X|X].
  { apply exact_of; [intros w [-> _]; reflexivity|]. right. exists PArith. split; [reflexivity|lia]. }
  unfold pbind at 1, plift at 1, cadd. destruct (N.leb_spec (2 ^ 32) (total lens + n)) as [Y|Y].
  { apply exact_of; [intros w [-> _]; reflexivity|]. right. exists PArith. split; [reflexivity|exact Y]. }
  apply exact_free; [intros w [_ H]; lia|].
  match goal with |- returns (fst (?p rest)) => assert (no_panic p) as NP; [|apply NP] end.
  repeat (apply no_panic_bind; [first [apply np_lift; apply np_until_nul | pt]|intros]). pt.
Qed.
Definition small {A} (p : parser A) : Prop := forall bs, N.of_nat (length bs) < 2 ^ 24 -> returns (fst (p bs)).
Lemma small_free {A} (p : parser A) : no_panic p -> small p. Proof. intros H bs _. apply H. Qed.
Lemma small_bind {A B} (p : parser A) (f : A -> parser B) : no_panic p -> suffix_p p -> (forall a, small (f a)) -> small (pbind p f).
Proof.
  intros NP Hs Hf bs L. unfold pbind. destruct (Hs bs) as [u Eu]. destruct (np_cases p NP bs) as [(a & r & E)|(e & r & E)]; rewrite E in *; cbn [snd] in Eu.
  - apply Hf. rewrite Eu, app_length in L. lia.
  - right. eexists. reflexivity.
Qed.
Lemma total_le lens : total lens <= 255 * N.of_nat (length lens).
Proof. induction lens as [|l lens IH]; cbn [total fold_right length]; [reflexivity|]. fold (total lens). pose proof (b2n_lt l). lia. Qed.
Lemma small_names t s n : small (read_load_names t s n).
Proof.
  intros bs L. destruct (load_names_exact t s n bs) as [P NL]. destruct (fst (read_load_names t s n bs)) as [a|e|w|]; [left; eauto|right; eauto|exfalso|congruence].
  destruct (proj1 (P w) eq_refl) as [_ (lens & rest & -> & Ll & H)]. pose proof (total_le lens) as T. rewrite app_length in L.
  change (2 ^ 24) with 16777216 in L. change (2 ^ 32) with 4294967296 in H. lia.
Qed.
Lemma small_names_bind {B} t s n (f : _ -> parser B) : (forall x, no_panic (f x)) -> small (pbind (read_load_names t s n) f).
Proof.
  intros Hf bs L. unfold pbind. destruct (small_names t s n bs L) as [[a E]|[e E]]; destruct (read_load_names t s n bs) as [r rest]; cbn [fst] in E; subst r.
  - apply Hf. - right. eexists. reflexivity.
Qed.
Lemma load_small : small read_load.
Proof.
  unfold read_load. do 13 (apply small_bind; [pt|sx|intros ?]). apply small_names_bind. intros [[[[? ?] ?] ?] ?]. pt.
Qed.
Lemma new_load_small : small read_new_load.
Proof.
  unfold read_new_load. do 17 (apply small_bind; [pt|sx|intros ?]). apply small_names_bind. intros [[[[? ?] ?] ?] ?]. pt.
Qed.
Lemma app_inj_len {A} (a : list A) : forall b c d, a ++ c = b ++ d -> length a = length b -> a = b /\ c = d.
Proof.
  induction a as [|x a IH]; intros [|y b] c d E L; try discriminate; [auto|]. injection E as -> E. injection L as L.
  destruct (IH b c d E L) as [-> ->]. auto.
Qed.
Lemma load_exact bs : panics_exactly (fst (read_load bs)) (fun w => w = PArith /\ load_too_long bs).
Proof.
  destruct (cut 25 bs) as [C|(pre & r & -> & C)].
  { assert (returns (fst (read_load bs))) as R by (apply load_small; lia).
    apply exact_free; [|exact R]. intros w [_ (a & c & b & l & r & -> & La & Lc & Lb & _)]. rewrite !app_length in C. lia. }
  destruct (split_bytes 14 11 pre C) as (a & pre2 & -> & La & C2). destruct (split_bytes 4 7 pre2 C2) as (c & b & -> & Lc & Lb).
  destruct (split_bytes 12 2 a La) as (x & y & -> & Lx & Ly). destruct (split_bytes 4 8 x Lx) as (x1 & x' & -> & Lx1 & Lx').
  destruct (split_bytes 4 4 x' Lx') as (x2 & x3 & -> & Lx2 & Lx3).
  destruct y as [|y1 [|y2 [|]]]; try discriminate. destruct b as [|b1 [|b2 [|b3 [|b4 [|b5 [|b6 [|b7 [|]]]]]]]]; try discriminate.
  assert (forall w, (w = PArith /\ load_too_long ((((x1 ++ x2 ++ x3) ++ [y1; y2]) ++ c ++ [b1; b2; b3; b4; b5; b6; b7]) ++ r)) <->
    (w = PArith /\ exists lens rest, r = lens ++ rest /\ N.of_nat (length lens) = le_val c /\ 2 ^ 32 <= total lens + le_val c)) as Q.
  { intros w. split; intros [-> H]; (split; [reflexivity|]).
    - destruct H as (a & c' & b & lens & rest & E & La' & Lc' & Lb' & Ll & H).
      rewrite <- (app_assoc _ _ r) in E. apply app_inj_len in E; [|lia]. destruct E as [_ E]. rewrite <- app_assoc in E.
      apply app_inj_len in E; [|lia]. destruct E as [-> E]. apply app_inj_len in E; [|rewrite Lb'; reflexivity]. destruct E as [_ ->].
      exists lens, rest. rewrite Ll in H. auto.
    - destruct H as (lens & rest & -> & Ll & H). exists ((x1 ++ x2 ++ x3) ++ [y1; y2]), c, [b1; b2; b3; b4; b5; b6; b7], lens, rest.
      split; [rewrite <- !app_assoc; reflexivity|]. split; [exact La|]. split; [exact Lc|]. split; [reflexivity|]. split; [exact Ll|]. rewrite Ll. exact H. }
  assert (forall A (q : res A) P P', (forall w, P w <-> P' w) -> panics_exactly q P' -> panics_exactly q P) as QQ.
  { intros A q P P' H [E NL]. split; [|exact NL]. intros w. rewrite E. symmetry. apply H. }
  apply (QQ _ _ _ _ Q). unfold read_load. rewrite <- !app_assoc.
  erewrite pbind_ok by (apply read_le_u32_spec; exact Lx1). erewrite pbind_ok by (apply read_le_u32_spec; exact Lx2). erewrite pbind_ok by (apply read_le_u32_spec; exact Lx3).
  cbn [app]. do 2 (erewrite pbind_ok by apply read_u8_cons). erewrite pbind_ok by (apply read_le_u32_spec; exact Lc).
  do 7 (erewrite pbind_ok by apply read_u8_cons).
  destruct (load_names_exact (b2n y1) (b2n y2) (le_val c) r) as [P NL]. unfold pbind at 1.
  destruct (read_load_names (b2n y1) (b2n y2) (le_val c) r) as [[[[[[? ?] ?] ?] ?]|e|w|] rest]; cbn [fst] in *.
  - split; [|discriminate]. intros w. rewrite <- P. split; discriminate.
  - split; [|discriminate]. intros w. rewrite <- P. split; discriminate.
  - split; [|discriminate]. intros w'. rewrite <- P. split; intros H; injection H as ->; reflexivity.
  - congruence.
Qed.
