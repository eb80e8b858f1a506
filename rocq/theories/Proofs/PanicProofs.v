(** * When the decoders of binlog values panic *)
From Coq Require Import Lia.
From Verif Require Import Model.Base Model.BytesParser Model.LenEnc Model.Utf8 Model.Time Model.Decimal Model.Col
  Spec.Nums Spec.Codec Spec.Wire Spec.DecimalSpec Spec.Decoders Spec.Catalogue
  Proofs.BaseLemmas Proofs.BytesParserProofs Proofs.CodecProofs Proofs.LenEncProofs Proofs.WireLemmas Proofs.PacketProofs Proofs.EventProofs
  Proofs.TimeProofs Proofs.DecimalProofs Proofs.LocalProofs Proofs.TotalProofs.
Open Scope N_scope.

(** ** Readers of a fixed number of bytes *)
Definition fixed {A} (k : nat) (p : parser A) : Prop :=
  (forall a rest, length a = k -> exists v, p (a ++ rest) = (Ok v, rest)) /\
  (forall bs, (length bs < k)%nat -> exists e rest, p bs = (Err e, rest)).
Lemma fixed_bind {A B} j k (p : parser A) (f : A -> parser B) : fixed j p -> (forall a, fixed k (f a)) -> fixed (j + k) (pbind p f).
Proof.
  intros [P1 P2] F. split.
  - intros a rest L. rewrite <- (firstn_skipn j a), <- app_assoc.
    destruct (P1 (firstn j a) (skipn j a ++ rest)) as [v E]; [rewrite firstn_length; lia|].
    destruct (F v) as [F1 _]. destruct (F1 (skipn j a) rest) as [w E2]; [rewrite skipn_length; lia|].
    exists w. unfold pbind. rewrite E. exact E2.
  - intros bs L. destruct (cut j bs) as [C|(a & rest & -> & C)].
    + destruct (P2 bs C) as (e & r & E). exists e, r. unfold pbind. rewrite E. reflexivity.
    + destruct (P1 a rest C) as [v E]. rewrite app_length in L.
      destruct (F v) as [_ F2]. destruct (F2 rest) as (e & r & E2); [lia|]. exists e, r. unfold pbind. rewrite E. exact E2.
Qed.
Lemma fixed_ret {A} (a : A) : fixed 0 (pret a).
Proof. split; [intros [|x l] rest L; [exists a; reflexivity|discriminate]|intros bs L; lia]. Qed.
Lemma fixed_bind0 {A B} k (p : parser A) (f : A -> parser B) : fixed k p -> (forall a, fixed 0 (f a)) -> fixed k (pbind p f).
Proof. intros H F. rewrite <- (Nat.add_0_r k). apply fixed_bind; assumption. Qed.
Lemma fixed_map {A B} k (f : A -> B) (p : parser A) : fixed k p -> fixed k (pmap f p).
Proof. intros H. unfold pmap. replace k with (k + 0)%nat by lia. apply fixed_bind; [exact H|intros; apply fixed_ret]. Qed.
Lemma fixed_of {A} k (p : parser A) (f : bytes -> A) : (forall a rest, length a = k -> p (a ++ rest) = (Ok (f a), rest)) ->
  short_reads k p -> fixed k p.
Proof.
  intros H S. split; [intros a rest L; exists (f a); apply H; exact L|].
  intros bs L. specialize (S bs L). eexists _, _. exact S.
Qed.
Lemma fixed_eq {A} j k (p : parser A) : j = k -> fixed j p -> fixed k p. Proof. intros ->. auto. Qed.
Lemma read_u8_spec' a rest : length a = 1%nat -> read_u8 (a ++ rest) = (Ok (be_val a), rest).
Proof.
  destruct a as [|b [|c a]]; intros L; try discriminate. cbn [app]. rewrite read_u8_cons. unfold be_val. cbn [rev app le_val].
  apply (f_equal (fun n => (Ok n, rest))). unfold b2n. lia.
Qed.
Lemma fixed_u8 : fixed 1 read_u8. Proof. apply (fixed_of _ _ be_val); [intros; apply read_u8_spec'; assumption|apply short_reads_all]. Qed.
Lemma fixed_be_u16 : fixed 2 read_be_u16. Proof. apply (fixed_of _ _ be_val); [intros; apply read_be_u16_spec; assumption|apply short_reads_all]. Qed.
Lemma fixed_be_u24 : fixed 3 read_be_u24. Proof. apply (fixed_of _ _ be_val); [intros; apply read_be_u24_spec; assumption|apply short_reads_all]. Qed.
Lemma fixed_be_u32 : fixed 4 read_be_u32. Proof. apply (fixed_of _ _ be_val); [intros; apply read_be_u32_spec; assumption|apply short_reads_all]. Qed.
Lemma fixed_repeat {A} k (p : parser A) n : fixed k p -> fixed (n * k) (prepeat n p).
Proof.
  intros H. induction n as [|n IH]; cbn [prepeat]; [apply fixed_ret|].
  cbn [Nat.mul]. apply fixed_bind; [exact H|]. intros a. replace (n * k)%nat with (n * k + 0)%nat by lia.
  apply fixed_bind; [exact IH|]. intros; apply fixed_ret.
Qed.
(** ** DATETIME and TIME *)
Lemma packed_zero y : y < 2 ^ 40 ->
  trunc 64 (N.shiftl (wsub 64 y 0x8000000000) 24) = if y <? 2 ^ 39 then 2 ^ 63 + y * 2 ^ 24 else (y - 2 ^ 39) * 2 ^ 24.
Proof.
  intros H. unfold trunc, wsub. rewrite N.shiftl_mul_pow2.
  change (2 ^ 40) with 1099511627776 in *. change (2 ^ 64) with 18446744073709551616. change (2 ^ 39) with 549755813888.
  change (2 ^ 24) with 16777216. change (2 ^ 63) with 9223372036854775808. change 0x8000000000 with 549755813888.
  destruct (N.ltb_spec y 549755813888); lia.
Qed.
Lemma be_val_zero k a : length a = k -> be_val a = 0 -> a = repeat x00 k.
Proof.
  intros L H. unfold be_val in H. rewrite <- (rev_involutive a). rewrite <- L.
  rewrite <- (rev_length a). generalize dependent (rev a). clear. intros l. induction l as [|b l IH]; intros H; [reflexivity|].
  cbn [le_val] in H. cbn [rev]. rewrite IH by lia. assert (b = x00) as -> by (apply b2n_inj; unfold b2n; change (to_N x00) with 0; lia).
  cbn [length repeat]. symmetry. apply repeat_cons.
Qed.
Lemma be_val_repeat k : be_val (repeat x00 k) = 0.
Proof.
  unfold be_val. assert (rev (repeat x00 k) = repeat x00 k) as ->.
  { induction k; [reflexivity|]. cbn [repeat rev]. rewrite IHk. symmetry. apply repeat_cons. }
  induction k; [reflexivity|]. cbn [repeat le_val]. change (to_N x00) with 0. lia.
Qed.

Definition dt_packed (y f : N) : res N :=
  rbind (cadd 64 (trunc 64 (N.shiftl (wsub 64 y 0x8000000000) 24)) f) (fun packed =>
  if negb (N.land y 0x8000000000 =? 0x8000000000) then neg64 packed else Ok packed).
Lemma dt_packed_spec y f : y < 2 ^ 40 -> f < 2 ^ 24 ->
  (y = 0 /\ f = 0 /\ dt_packed y f = Panic PArith) \/ (~ (y = 0 /\ f = 0) /\ exists v, dt_packed y f = Ok v).
Proof.
  intros Hy Hf. unfold dt_packed. rewrite packed_zero by exact Hy. change 0x8000000000 with (2 ^ 39).
  rewrite top_bit by exact Hy.
  change (2 ^ 40) with 1099511627776 in *. change (2 ^ 39) with 549755813888.
  change (2 ^ 24) with 16777216 in *. change (2 ^ 63) with 9223372036854775808.
  assert (forall s, s < 18446744073709551616 -> forall x y, x + y = s -> cadd 64 x y = Ok (x + y)) as C.
  { intros s Hs x z E. unfold cadd. change (2 ^ 64) with 18446744073709551616. destruct (N.leb_spec 18446744073709551616 (x + z)); [lia|]. reflexivity. }
  destruct (N.ltb_spec y 549755813888) as [L|L]; destruct (N.leb_spec 549755813888 y) as [L2|L2]; try lia; cbn [negb].
  - rewrite (C (9223372036854775808 + y * 16777216 + f)) by lia. cbn [rbind]. unfold neg64. change (2 ^ 63) with 9223372036854775808.
    destruct (N.eqb_spec (9223372036854775808 + y * 16777216 + f) 9223372036854775808).
    + left. split; [lia|]. split; [lia|reflexivity].
    + right. split; [lia|]. eexists. reflexivity.
  - rewrite (C ((y - 549755813888) * 16777216 + f)) by lia. cbn [rbind]. right. split; [lia|]. eexists. reflexivity.
Qed.
Lemma dt_step (fr : parser N) k scale frac :
  (forall a rest, length a = k -> fr (a ++ rest) = (Ok (be_val a), rest)) ->
  packed_from_datetime_binary frac =
    (y <- read_be_u40 ;;
     packed <- (f <- fr ;; plift (cadd 64 (trunc 64 (N.shiftl (wsub 64 y 0x8000000000) 24)) (f * scale))) ;;
     if negb (N.land y 0x8000000000 =? 0x8000000000) then plift (neg64 packed) else pret packed) ->
  forall a l rest, length a = 5%nat -> length l = k ->
    packed_from_datetime_binary frac (a ++ l ++ rest) = (dt_packed (be_val a) (be_val l * scale), rest).
Proof.
  intros Hf -> a l rest La Ll. unfold pbind at 1. rewrite read_be_u40_spec by exact La.
  unfold pbind. rewrite Hf by exact Ll. unfold dt_packed, plift, pret.
  destruct (cadd 64 _ _); cbn [rbind]; try reflexivity. destruct (negb _); reflexivity.
Qed.
Lemma read_none_spec a rest : length a = 0%nat -> pret 0 (a ++ rest) = (Ok (be_val a), rest).
Proof. destruct a; [reflexivity|discriminate]. Qed.
Lemma cadd_zero x : cadd 64 (trunc 64 x) (0 * 1) = Ok (trunc 64 x).
Proof.
  unfold cadd, trunc. rewrite N.mul_0_l, N.add_0_r. pose proof (N.mod_upper_bound x (2 ^ 64) ltac:(discriminate)).
  destruct (N.leb_spec (2 ^ 64) (x mod 2 ^ 64)); [lia|reflexivity].
Qed.
Lemma dt_read frac : frac <= 6 -> exists scale, 1 <= scale /\
  (forall l, length l = N.to_nat ((frac + 1) / 2) -> be_val l * scale < 2 ^ 24) /\
  (forall a l rest, length a = 5%nat -> length l = N.to_nat ((frac + 1) / 2) ->
    packed_from_datetime_binary frac (a ++ l ++ rest) = (dt_packed (be_val a) (be_val l * scale), rest)).
Proof.
  intros H. assert (frac = 0 \/ (frac = 1 \/ frac = 2) \/ (frac = 3 \/ frac = 4) \/ frac = 5 \/ frac = 6) as [->|[C|[C|C]]] by lia.
  - exists 1. split; [lia|]. split; [intros [|] L; [reflexivity|discriminate]|]. intros a [|] rest L1 L2; [|discriminate].
    cbn [app]. unfold packed_from_datetime_binary, pbind. rewrite read_be_u40_spec by exact L1. unfold dt_packed.
    change (be_val []) with 0. rewrite cadd_zero. cbn [rbind]. destruct (negb _); reflexivity.
  - exists 10000. split; [lia|]. split.
    + intros l L. assert (length l = 1%nat) as L1 by (destruct C as [->| ->]; exact L).
      pose proof (be_val_bound_k 1 l L1). change (256 ^ N.of_nat 1) with 256 in *. change (2 ^ 24) with 16777216. lia.
    + intros a l rest La Ll. apply (dt_step read_u8 1); [intros; apply read_u8_spec'; assumption| |exact La|].
      * destruct C as [->| ->]; reflexivity.
      * destruct C as [->| ->]; exact Ll.
  - exists 100. split; [lia|]. split.
    + intros l L. assert (length l = 2%nat) as L1 by (destruct C as [->| ->]; exact L).
      pose proof (be_val_bound_k 2 l L1). change (256 ^ N.of_nat 2) with 65536 in *. change (2 ^ 24) with 16777216. lia.
    + intros a l rest La Ll. apply (dt_step read_be_u16 2); [intros; apply read_be_u16_spec; assumption| |exact La|].
      * destruct C as [->| ->]; reflexivity.
      * destruct C as [->| ->]; exact Ll.
  - exists 1. split; [lia|]. assert (N.to_nat ((frac + 1) / 2) = 3%nat) as E by (destruct C as [->| ->]; reflexivity). rewrite E. split.
    + intros l L. pose proof (be_val_bound_k 3 l L). change (256 ^ N.of_nat 3) with 16777216 in *. change (2 ^ 24) with 16777216. lia.
    + intros a l rest La Ll. assert (packed_from_datetime_binary frac (a ++ l ++ rest) = packed_from_datetime_binary 6 (a ++ l ++ rest)) as ->
        by (destruct C as [->| ->]; reflexivity).
      unfold packed_from_datetime_binary, pbind. rewrite read_be_u40_spec by exact La. rewrite read_be_u24_spec by exact Ll.
      rewrite N.mul_1_r. unfold dt_packed, plift, pret.
      destruct (cadd 64 _ _); cbn [rbind]; try reflexivity. destruct (negb _); reflexivity.
Qed.
Lemma fixed_u40 : fixed 5 read_be_u40. Proof. apply (fixed_of _ _ be_val); [intros; apply read_be_u40_spec; assumption|apply short_reads_all]. Qed.
Lemma bind_short {A B} k (p : parser A) (f : A -> parser B) bs : fixed k p -> (length bs < k)%nat -> exists e rest, pbind p f bs = (Err e, rest).
Proof. intros [_ H] L. destruct (H bs L) as (e & r & E). exists e, r. unfold pbind. rewrite E. reflexivity. Qed.
Lemma dt_short frac bs : frac <= 6 -> (length bs < 5 + N.to_nat ((frac + 1) / 2))%nat ->
  exists e rest, packed_from_datetime_binary frac bs = (Err e, rest).
Proof.
  intros H L. destruct (cut 5 bs) as [C|(a & rest & -> & C)]; [apply (bind_short 5); [apply fixed_u40|exact C]|].
  rewrite app_length in L. unfold packed_from_datetime_binary. unfold pbind at 1. rewrite read_be_u40_spec by exact C. cbv zeta.
  assert (frac = 0 \/ (frac = 1 \/ frac = 2) \/ (frac = 3 \/ frac = 4) \/ frac = 5 \/ frac = 6) as [->|[D|[D|D]]] by lia.
  - change (N.to_nat ((0 + 1) / 2)) with 0%nat in L. lia.
  - destruct D as [->| ->]; cbv iota; (destruct (bind_short 1 read_u8 (fun f => plift (cadd 64 (trunc 64 (N.shiftl (wsub 64 (be_val a) 0x8000000000) 24)) (f * 10000))) rest) as (e & r & E);
      [apply fixed_u8|change (N.to_nat ((1 + 1) / 2)) with 1%nat in L; change (N.to_nat ((2 + 1) / 2)) with 1%nat in L; lia|]; exists e, r; unfold pbind at 1; rewrite E; reflexivity).
  - destruct D as [->| ->]; cbv iota; (destruct (bind_short 2 read_be_u16 (fun f => plift (cadd 64 (trunc 64 (N.shiftl (wsub 64 (be_val a) 0x8000000000) 24)) (f * 100))) rest) as (e & r & E);
      [apply fixed_be_u16|change (N.to_nat ((3 + 1) / 2)) with 2%nat in L; change (N.to_nat ((4 + 1) / 2)) with 2%nat in L; lia|]; exists e, r; unfold pbind at 1; rewrite E; reflexivity).
  - destruct D as [->| ->]; cbv iota; (destruct (bind_short 3 read_be_u24 (fun f => plift (cadd 64 (trunc 64 (N.shiftl (wsub 64 (be_val a) 0x8000000000) 24)) f)) rest) as (e & r & E);
      [apply fixed_be_u24|change (N.to_nat ((5 + 1) / 2)) with 3%nat in L; change (N.to_nat ((6 + 1) / 2)) with 3%nat in L; lia|]; exists e, r; unfold pbind at 1; rewrite E; reflexivity).
Qed.
Lemma packed_big frac bs : 6 < frac -> exists e rest, packed_from_datetime_binary frac bs = (Err e, rest).
Proof.
  intros H. destruct (cut 5 bs) as [C|(a & rest & -> & C)]; [apply (bind_short 5); [apply fixed_u40|exact C]|].
  unfold packed_from_datetime_binary. unfold pbind at 1. rewrite read_be_u40_spec by exact C. cbv zeta.
  assert (frac <> 0 /\ frac <> 1 /\ frac <> 2 /\ frac <> 3 /\ frac <> 4 /\ frac <> 5 /\ frac <> 6) as D by lia.
  destruct frac as [|[[[p|p|]|[p|p|]|]|[[p|p|]|[p|p|]|]|]]; try lia; eexists _, _; reflexivity.
Qed.
Lemma datetime_exact frac bs :
  panics_exactly (fst (read_binlog_value (MDateTime frac) bs)) (value_panics (MDateTime frac) bs).
Proof.
  cbn [read_binlog_value]. apply exact_of.
  - intros w Hw. inversion Hw; subst. apply panic_map. unfold datetime_from_binlog.
    destruct (dt_read frac) as (scale & S1 & S2 & S3); [assumption|].
    unfold pbind. rewrite repeat_app, <- app_assoc, S3 by apply repeat_length. rewrite !be_val_repeat, N.mul_0_l. reflexivity.
  - unfold datetime_from_binlog.
    assert (forall f, (exists v rest, packed_from_datetime_binary frac bs = (Ok v, rest)) \/ (exists e rest, packed_from_datetime_binary frac bs = (Err e, rest)) ->
      returns (fst (pmap LDateTime (pbind (packed_from_datetime_binary frac) (fun packed => pret (f packed : my_datetime))) bs))) as F.
    { intros f [(v & r & E)|(e & r & E)]; apply returns_map; unfold pbind; rewrite E; [left|right]; eexists; reflexivity. }
    destruct (N.leb_spec frac 6) as [L|L]; [|left; apply F; right; apply packed_big; exact L].
    destruct (cut (5 + N.to_nat ((frac + 1) / 2)) bs) as [C|(a & rest & -> & C)]; [left; apply F; right; apply dt_short; assumption|].
    destruct (dt_read frac L) as (scale & S1 & S2 & S3).
    assert (a = firstn 5 a ++ skipn 5 a) as E by (symmetry; apply firstn_skipn).
    assert (length (firstn 5 a) = 5%nat) as L5 by (rewrite firstn_length; lia).
    assert (length (skipn 5 a) = N.to_nat ((frac + 1) / 2)) as Lk by (rewrite skipn_length; lia).
    pose proof (be_val_bound_k 5 _ L5) as B. change (256 ^ N.of_nat 5) with (2 ^ 40) in B.
    destruct (dt_packed_spec (be_val (firstn 5 a)) (be_val (skipn 5 a) * scale) B (S2 _ Lk)) as [(Z1 & Z2 & P)|(Z & v & P)].
    + right. exists PArith. assert (be_val (skipn 5 a) = 0) as Z3 by lia.
      rewrite E, (be_val_zero 5 _ L5 Z1), (be_val_zero _ _ Lk Z3), <- repeat_app. apply vp_datetime. exact L.
    + left. apply F. left. exists v, rest. rewrite E, <- app_assoc, S3 by assumption. rewrite P. reflexivity.
Qed.
(** results within bounds *)
Definition below {A} (P : A -> Prop) (p : parser A) : Prop := forall bs a rest, p bs = (Ok a, rest) -> P a.
Lemma no_panic_bind_below {A B} (P : A -> Prop) (p : parser A) (f : A -> parser B) :
  no_panic p -> below P p -> (forall a, P a -> no_panic (f a)) -> no_panic (pbind p f).
Proof.
  intros Hp Hb Hf bs. specialize (Hp bs). specialize (Hb bs). unfold pbind.
  destruct (p bs) as [[a|e|w|] rest]; cbn [fst] in *; destruct Hp as [[x E]|[x E]]; try discriminate.
  - apply Hf. eapply Hb. reflexivity.
  - right. eexists. reflexivity.
Qed.
Lemma below_of k (p : parser N) : (forall a rest, length a = k -> p (a ++ rest) = (Ok (be_val a), rest)) ->
  short_reads k p -> below (fun n => n < 256 ^ N.of_nat k) p.
Proof.
  intros H S bs a rest E. destruct (cut k bs) as [C|(x & r & -> & C)]; [rewrite (S bs C) in E; discriminate|].
  rewrite H in E by exact C. injection E as <- _. apply be_val_bound_k. exact C.
Qed.
Lemma below_u8 : below (fun n => n < 256) read_u8. Proof. apply (below_of 1); [intros; apply read_u8_spec'; assumption|apply short_reads_all]. Qed.
Lemma below_be_u16 : below (fun n => n < 65536) read_be_u16. Proof. apply (below_of 2); [intros; apply read_be_u16_spec; assumption|apply short_reads_all]. Qed.
Lemma below_be_u24 : below (fun n => n < 16777216) read_be_u24. Proof. apply (below_of 3); [intros; apply read_be_u24_spec; assumption|apply short_reads_all]. Qed.
Lemma below_ret {A} (P : A -> Prop) a : P a -> below P (pret a). Proof. intros H bs x r E. injection E as <- _. exact H. Qed.
Lemma below_fail {A} (P : A -> Prop) e : below P (pfail e). Proof. intros bs x r E. discriminate. Qed.
Lemma below_bind {A B} (Q : A -> Prop) (P : B -> Prop) (p : parser A) f : below Q p -> (forall a, Q a -> below P (f a)) -> below P (pbind p f).
Proof. intros H1 H2 bs b r E. apply pbind_inv in E. destruct E as (a & mid & E1 & E2). apply H1 in E1. eapply H2; eassumption. Qed.
Lemma np_time2 frac : no_panic (packed_from_time_binary frac).
Proof.
  unfold packed_from_time_binary. eapply no_panic_bind_below; [pt|apply below_be_u24|]. intros hms Hh. cbv beta in Hh. cbv zeta.
  change 0x800000 with (2 ^ 23). rewrite top_bit by (change (2 ^ (23 + 1)) with 16777216; exact Hh).
  change (2 ^ 23) with 8388608. unfold wsub.
  apply (no_panic_bind_below (fun packed => hms < 8388608 -> packed <> 2 ^ 63)).
  - destruct frac as [|[[[p|p|]|[p|p|]|]|[[p|p|]|[p|p|]|]|]]; pt.
  - change (2 ^ 63) with 9223372036854775808.
    assert (forall f, f < 16777216 -> hms < 8388608 -> N.shiftl ((hms + 2 ^ 32 - 8388608) mod 2 ^ 32) 24 + f <> 9223372036854775808) as Z.
    { intros f Hf _. rewrite N.shiftl_mul_pow2. change (2 ^ 32) with 4294967296. change (2 ^ 24) with 16777216. lia. }
    destruct frac as [|[[[p|p|]|[p|p|]|]|[[p|p|]|[p|p|]|]|]]; try apply below_fail.
    + apply below_ret. rewrite <- (N.add_0_r (N.shiftl _ _)). apply Z. lia.
    + eapply below_bind; [apply below_be_u24|]. intros f Hf. cbv beta in Hf. apply below_ret. intros L. rewrite N.shiftl_mul_pow2.
      change (2 ^ 64) with 18446744073709551616. change (2 ^ 24) with 16777216. change 0x800000000000 with 140737488355328. lia.
    + eapply below_bind; [apply below_be_u16|]. intros f Hf. cbv beta in Hf. apply below_ret. apply Z. lia.
    + eapply below_bind; [apply below_be_u24|]. intros f Hf. cbv beta in Hf. apply below_ret. intros L. rewrite N.shiftl_mul_pow2.
      change (2 ^ 64) with 18446744073709551616. change (2 ^ 24) with 16777216. change 0x800000000000 with 140737488355328. lia.
    + eapply below_bind; [apply below_be_u16|]. intros f Hf. cbv beta in Hf. apply below_ret. apply Z. lia.
    + eapply below_bind; [apply below_u8|]. intros f Hf. cbv beta in Hf. apply below_ret. apply Z. lia.
    + eapply below_bind; [apply below_u8|]. intros f Hf. cbv beta in Hf. apply below_ret. apply Z. lia.
  - intros packed Hp. apply no_panic_bind; [|pt]. destruct (N.leb_spec 8388608 hms); cbn [negb]; [pt|].
    rewrite neg64_ok by auto. apply np_in_pattern. left. eexists. reflexivity.
Qed.
Lemma np_time_binlog frac : no_panic (time_from_binlog frac).
Proof. unfold time_from_binlog. apply no_panic_bind; [apply np_time2|]. intros [packed neg]. pt. Qed.

(** ** DECIMAL *)
Lemma be_val_wbe a : wbe (length a) (be_val a) = a.
Proof. unfold wbe, be_val. rewrite <- (rev_length a), wle_le_val. apply rev_involutive. Qed.
Lemma complement_be k a : length a = k -> be_val (map complement a) = 2 ^ (8 * N.of_nat k) - 1 - be_val a.
Proof.
  intros L. pose proof (be_val_bound_k k a L) as B.
  assert (256 ^ N.of_nat k = 2 ^ (8 * N.of_nat k)) as E by (rewrite N.pow_mul_r; reflexivity). rewrite E in B.
  rewrite <- (be_val_wbe a) at 1. rewrite L, complement_wbe by exact B. apply wbe_val. lia.
Qed.
Lemma fixed_extra rev k neg : (1 <= k <= 4)%nat -> fixed k (read_extra_fragment rev (N.of_nat k) neg).
Proof.
  intros H. assert (k = 1 \/ k = 2 \/ k = 3 \/ k = 4)%nat as [->|[->|[->| ->]]] by lia; cbn -[N.lxor];
    (apply fixed_bind0; [|intros; apply fixed_ret]).
  - apply fixed_u8. - apply fixed_be_u16. - apply fixed_be_u24. - apply fixed_be_u32.
Qed.
Lemma fixed_fragment neg : fixed 4 (read_fragment neg).
Proof. apply (fixed_bind 4 0); [apply fixed_be_u32|intros; apply fixed_ret]. Qed.
Lemma read_extra_last' k neg a rest : (1 <= k <= 4)%nat -> length a = k ->
  read_extra_fragment false (N.of_nat k) neg (a ++ rest) = (Ok (last_group neg a), rest).
Proof.
  intros H L. unfold last_group. pose proof (be_val_bound_k k a L) as B.
  assert (E : be_val (if neg then map complement a else a) = if neg then N.lxor (be_val a) (N.ones (8 * N.of_nat k)) else be_val a).
  { destruct neg; [|reflexivity]. rewrite (complement_be k) by exact L. rewrite lxor_ones; [reflexivity|].
    rewrite N.pow_mul_r. exact B. }
  rewrite E. assert (k = 1 \/ k = 2 \/ k = 3 \/ k = 4)%nat as [->|[->|[->| ->]]] by lia; cbn -[N.lxor N.land be_val]; unfold pbind.
  - rewrite read_u8_spec' by exact L. reflexivity.
  - rewrite read_be_u16_spec by exact L. reflexivity.
  - rewrite read_be_u24_spec by exact L. unfold pret. cbv zeta.
    change 0x00ffffff with (N.ones 24). rewrite N.land_ones. rewrite N.mod_small; [reflexivity|].
    change (256 ^ N.of_nat 3) with (2 ^ 24) in B. destruct neg; [|exact B]. rewrite lxor_ones by exact B.
    change (2 ^ 24) with 16777216. lia.
  - rewrite read_be_u32_spec by exact L. reflexivity.
Qed.
Lemma dig_table m : m < 9 -> tget DIG_TO_BYTES m = Ok (N.of_nat (dig_bytes m)).
Proof. intros H. assert (m = 0 \/ m = 1 \/ m = 2 \/ m = 3 \/ m = 4 \/ m = 5 \/ m = 6 \/ m = 7 \/ m = 8) as C by lia. repeat destruct C as [->|C]; try reflexivity. subst. reflexivity. Qed.
Lemma pow_table m : m < 10 -> tget POWERS_10 m = Ok (10 ^ m).
Proof. intros H. assert (m = 0 \/ m = 1 \/ m = 2 \/ m = 3 \/ m = 4 \/ m = 5 \/ m = 6 \/ m = 7 \/ m = 8 \/ m = 9) as C by lia. repeat destruct C as [->|C]; try reflexivity. subst. reflexivity. Qed.
Lemma dig_range m : 0 < m < 9 -> (1 <= dig_bytes m <= 4)%nat.
Proof. intros H. assert (m = 1 \/ m = 2 \/ m = 3 \/ m = 4 \/ m = 5 \/ m = 6 \/ m = 7 \/ m = 8) as C by lia. repeat destruct C as [->|C]; try (cbn; lia). subst; cbn; lia. Qed.
Lemma list_sum_repeat k n : list_sum (repeat k n) = (n * k)%nat.
Proof. induction n; [reflexivity|]. cbn [repeat list_sum fold_right]. unfold list_sum in IHn. rewrite IHn. lia. Qed.
(** the groups before the last *)
Definition dec_head (intg frac : N) (neg : bool) : parser (list N * list N * list N) :=
  a <- (if 0 <? intg mod 9 then f <- read_extra_fragment true (N.of_nat (dig_bytes (intg mod 9))) neg ;; pret [f] else pret []) ;;
  b <- prepeat (N.to_nat (intg / 9)) (read_fragment neg) ;;
  c <- prepeat (N.to_nat (frac / 9)) (read_fragment neg) ;;
  pret (a, b, c).
Lemma fixed_head intg frac neg :
  fixed (list_sum (int_widths intg ++ repeat 4%nat (N.to_nat (frac / 9)))) (dec_head intg frac neg).
Proof.
  unfold int_widths, dec_head. rewrite !list_sum_app, !list_sum_repeat, <- Nat.add_assoc.
  pose proof (N.mod_upper_bound intg 9 ltac:(discriminate)) as U.
  apply fixed_bind.
  - destruct (N.eqb_spec (intg mod 9) 0) as [->|E]; [apply fixed_ret|].
    destruct (N.ltb_spec 0 (intg mod 9)); [|lia]. unfold list_sum. cbn [fold_right]. rewrite Nat.add_0_r.
    apply fixed_bind0; [|intros; apply fixed_ret]. apply fixed_extra. apply dig_range. lia.
  - intros a. apply fixed_bind; [apply fixed_repeat, fixed_fragment|]. intros b.
    apply fixed_bind0; [apply fixed_repeat, fixed_fragment|]. intros; apply fixed_ret.
Qed.
Lemma mod9_sub x : x - x / DIG_PER_DEC1 * DIG_PER_DEC1 = x mod 9.
Proof. unfold DIG_PER_DEC1. lia. Qed.
Lemma sign_bit b : (N.land (b2n b) 0x80 =? 0x80) = N.testbit (b2n b) 7.
Proof. destruct b; reflexivity. Qed.
Lemma read_decimal_eq intg frac b0 bs0 (neg := negb (N.testbit (b2n b0) 7)) bs : bs = b0 :: bs0 ->
  read_decimal intg frac bs =
  (' (a, b, c) <- dec_head intg frac neg ;;
   d <- (if 0 <? frac mod 9
         then f <- read_extra_fragment false (N.of_nat (dig_bytes (frac mod 9))) neg ;;
              f <- plift (cmul 32 f (10 ^ (9 - frac mod 9))) ;; pret [f]
         else pret []) ;;
   pret (mk_dec intg frac neg (a ++ b ++ c ++ d))) bs.
Proof.
  intros ->. unfold read_decimal. cbv zeta. rewrite !mod9_sub.
  pose proof (N.mod_upper_bound intg 9 ltac:(discriminate)) as U1. pose proof (N.mod_upper_bound frac 9 ltac:(discriminate)) as U2.
  rewrite !dig_table by assumption. unfold DIG_PER_DEC1. rewrite pow_table by lia.
  unfold dec_head, pbind, plift. cbv beta iota. rewrite sign_bit. fold neg.
  match goal with |- (let (r, rest) := ?x in _) = _ => destruct x as [[a|e|w|] rest1]; try reflexivity end.
  destruct (prepeat _ _ rest1) as [[b|e|w|] rest2]; try reflexivity.
  destruct (prepeat _ _ rest2) as [[c|e|w|] rest3]; try reflexivity.
Qed.
Lemma hd_app (a b : bytes) d : a <> [] -> hd d (a ++ b) = hd d a. Proof. destruct a; [contradiction|reflexivity]. Qed.
Lemma returns_map_or {A B} (f : A -> B) (p : parser A) bs Q : returns (fst (p bs)) \/ Q -> returns (fst (pmap f p bs)) \/ Q.
Proof. intros [H|H]; [left; apply returns_map; exact H|right; exact H]. Qed.
Lemma decimal_exact prec frac bs :
  panics_exactly (fst (read_binlog_value (MNewDecimal prec frac) bs)) (value_panics (MNewDecimal prec frac) bs).
Proof.
  cbn [read_binlog_value]. pose proof (N.mod_upper_bound frac 9 ltac:(discriminate)) as U. apply exact_of.
  - intros w Hw. inversion Hw; subst.
    + destruct (N.ltb_spec prec frac); [reflexivity|lia].
    + destruct (N.ltb_spec prec frac); [lia|]. apply panic_map.
      destruct (fixed_head (prec - frac) frac (negb (N.testbit (b2n (hd x00 (head ++ last))) 7))) as [F _].
      destruct (F head (last ++ rest)) as [[[a b] c] E]; [assumption|].
      pose proof (dig_range (frac mod 9) ltac:(lia)) as D.
      assert (head ++ last <> []) as N0 by (destruct head; [destruct last; [cbn in *; lia|]|]; discriminate).
      assert (exists b0 bs0, head ++ last ++ rest = b0 :: bs0 /\ hd x00 (head ++ last) = b0) as (b0 & bs0 & E0 & E1).
      { rewrite app_assoc. destruct (head ++ last) as [|x y]; [contradiction|]. exists x, (y ++ rest). split; reflexivity. }
      rewrite (read_decimal_eq _ _ b0 bs0 _ E0). rewrite <- E1. unfold pbind. rewrite E.
      destruct (N.ltb_spec 0 (frac mod 9)); [|lia]. rewrite (read_extra_last' (dig_bytes (frac mod 9))) by assumption.
      unfold plift, cmul. destruct (N.leb_spec (2 ^ 32) (last_group (negb (N.testbit (b2n (hd x00 (head ++ last))) 7)) last * 10 ^ (9 - frac mod 9))); [reflexivity|lia].
  - destruct (N.ltb_spec prec frac) as [L|L].
    { right. exists PAssert. constructor. exact L. }
    destruct bs as [|b0 bs0].
    { left. apply returns_map. unfold read_decimal. cbv zeta. rewrite !mod9_sub. rewrite !dig_table by (apply N.mod_upper_bound; discriminate).
      left. eexists. reflexivity. }
    apply returns_map_or. rewrite (read_decimal_eq _ _ b0 bs0 _ eq_refl). set (neg := negb (N.testbit (b2n b0) 7)).
    destruct (fixed_head (prec - frac) frac neg) as [F1 F2].
    destruct (cut (list_sum (int_widths (prec - frac) ++ repeat 4%nat (N.to_nat (frac / 9)))) (b0 :: bs0)) as [C|(head & mid & E & C)].
    { destruct (F2 _ C) as (e & r & E). left. right. exists e. unfold pbind. rewrite E. reflexivity. }
    rewrite E. destruct (F1 head mid C) as [[[a b] c] E1]. unfold pbind at 1. rewrite E1.
    destruct (N.ltb_spec 0 (frac mod 9)) as [P|P]; [|left; left; eexists; reflexivity].
    pose proof (dig_range (frac mod 9) ltac:(lia)) as D.
    destruct (cut (dig_bytes (frac mod 9)) mid) as [C2|(last & rest & -> & C2)].
    { destruct (fixed_extra false (dig_bytes (frac mod 9)) neg D) as [_ G]. destruct (G _ C2) as (e & r & E2).
      left. right. exists e. unfold pbind. rewrite E2. reflexivity. }
    unfold pbind. rewrite (read_extra_last' (dig_bytes (frac mod 9))) by assumption.
    unfold plift, cmul. destruct (N.leb_spec (2 ^ 32) (last_group neg last * 10 ^ (9 - frac mod 9))) as [B|B]; [|left; left; eexists; reflexivity].
    right. exists PArith. apply vp_decimal; try assumption; [lia|]. 
    assert (hd x00 (head ++ last) = b0) as ->; [|exact B].
    assert (head ++ last <> []) as N0 by (destruct head; [destruct last; [cbn in *; lia|]|]; discriminate).
    rewrite app_assoc in E. destruct (head ++ last) as [|x y]; [contradiction|]. injection E as -> _. reflexivity.
Qed.

(** ** Every column type *)
Lemma np_binlog_plain m : match m with MDecimal | MDouble _ | MDateTime _ | MBit _ _ | MNewDecimal _ _ | MBlob _ | MVarString _ | MGeometry _ => False | _ => True end ->
  no_panic (read_binlog_value m).
Proof.
  destruct m; cbn [read_binlog_value]; intros H; try contradiction; try solve [pt].
  - apply no_panic_map. apply np_time_binlog.
Qed.
Lemma read_u8_lt bs n rest : read_u8 bs = (Ok n, rest) -> exists b, bs = b :: rest /\ n = b2n b.
Proof. destruct bs as [|b bs]; intros E; [discriminate|]. cbn in E. injection E as <- <-. exists b. auto. Qed.
Lemma read_u16_inv bs n rest : read_le_u16 bs = (Ok n, rest) -> exists b0 b1, bs = b0 :: b1 :: rest /\ n = le_val [b0; b1].
Proof.
  intros E. destruct (cut 2 bs) as [C|(a & r & -> & C)].
  - destruct short_reads_all as (_ & _ & S & _). rewrite (S bs C) in E. discriminate.
  - rewrite read_le_u16_spec in E by exact C. injection E as <- <-. destruct a as [|b0 [|b1 [|]]]; try discriminate. exists b0, b1. auto.
Qed.
Lemma varstring_exact max bs :
  panics_exactly (fst (read_binlog_value (MVarString max) bs)) (value_panics (MVarString max) bs).
Proof.
  cbn [read_binlog_value]. apply exact_of.
  - intros w Hw. inversion Hw; subst; unfold pbind.
    + destruct (N.ltb_spec max 256); [|lia]. rewrite read_u8_cons. destruct (N.ltb_spec max (b2n b)); [reflexivity|lia].
    + destruct (N.ltb_spec max 256); [lia|]. change (b0 :: b1 :: rest) with ([b0; b1] ++ rest). rewrite read_le_u16_spec by reflexivity.
      destruct (N.ltb_spec max (le_val [b0; b1])); [reflexivity|lia].
  - unfold pbind. destruct (N.ltb_spec max 256) as [L|L].
    + destruct (read_u8 bs) as [r rest] eqn:E. destruct (good_no_panic _ good_read_u8 bs) as [[n Hn]|[e He]]; rewrite E in *; cbn [fst] in *; subst r; [|left; right; eexists; reflexivity].
      destruct (read_u8_lt _ _ _ E) as (b & -> & ->). destruct (N.ltb_spec max (b2n b)) as [G|G].
      * right. exists PAssert. apply vp_varchar; assumption.
      * left. apply no_panic_at. pt.
    + destruct (read_le_u16 bs) as [r rest] eqn:E. assert (no_panic read_le_u16) as NP by pt. destruct (NP bs) as [[n Hn]|[e He]]; rewrite E in *; cbn [fst] in *; subst r; [|left; right; eexists; reflexivity].
      destruct (read_u16_inv _ _ _ E) as (b0 & b1 & -> & ->). destruct (N.ltb_spec max (le_val [b0; b1])) as [G|G].
      * right. exists PAssert. apply vp_long_varchar; assumption.
      * left. apply no_panic_at. pt.
Qed.
Lemma value_exact m bs : panics_exactly (fst (read_binlog_value m bs)) (value_panics m bs).
Proof.
  destruct m; try apply datetime_exact; try apply decimal_exact; try apply varstring_exact;
    try (apply exact_free; [intros w Hw; inversion Hw|apply np_binlog_plain; exact I]); cbn [read_binlog_value].
  - apply exact_of; [intros w Hw; inversion Hw; reflexivity|]. right. eexists. constructor.
  - apply exact_of.
    + intros w Hw. inversion Hw; subst. apply panic_map, panic_f64. assumption.
    + assert (5 <= length bs <= 7 \/ ~ 5 <= length bs <= 7)%nat as [L|L] by lia.
      * right. eexists. constructor. exact L.
      * left. apply returns_map, np_f64. exact L.
  - apply exact_of.
    + intros w Hw. inversion Hw; subst. unfold pbind, plift, cadd. change (2 ^ 8) with 256.
      match goal with |- context [256 <=? ?x] => destruct (N.leb_spec 256 x); [reflexivity|lia] end.
    + unfold pbind, plift, cadd. change (2 ^ 8) with 256.
      match goal with |- context [256 <=? ?x] => destruct (N.leb_spec 256 x) end; [|left; apply no_panic_at; pt].
      right. exists PArith. constructor. assumption.
  - assert (forall n, ~ 1 <= n <= 4 -> match n with 1 => read_u8 | 2 => read_le_u16 | 3 => read_le_u24 | 4 => read_le_u32 | _ => ppanic PUnreachable end = ppanic PUnreachable) as B.
    { clear. intros n H. destruct n as [|[p|[p|p|]|]]; try reflexivity; try lia; destruct p; try reflexivity; lia. }
    apply exact_of.
    + intros w Hw. inversion Hw; subst. rewrite B by assumption. reflexivity.
    + assert (1 <= pack_len <= 4 \/ ~ 1 <= pack_len <= 4) as [D|D] by lia.
      * assert (pack_len = 1 \/ pack_len = 2 \/ pack_len = 3 \/ pack_len = 4) as [->|[->|[->| ->]]] by lia; left; apply no_panic_at; pt.
      * right. exists PUnreachable. constructor. exact D.
  - apply exact_of; [intros w Hw; inversion Hw; reflexivity|]. right. eexists. constructor.
Qed.
