(** * The rows of an event: how much is decoded from how many bytes *)
From Coq Require Import List NArith ZArith Lia Arith Bool.
From Verif Require Import Model.Base Model.BytesParser Model.LenEnc Model.Bitmap Model.Cmd Model.Col Model.Row Model.EventBody Model.Rows
  Spec.Nums Spec.BitmapSpec Spec.Sizes Proofs.BaseLemmas Proofs.BytesParserProofs Proofs.CodecProofs Proofs.BitmapProofs Proofs.EventPanicProofs Proofs.SizeProofs.
Import ListNotations.
Local Open Scope nat_scope.

Lemma w_log_row n bm metas : within (contents log_value_size) (read_log_row n bm metas).
Proof. unfold read_log_row. apply w_lift. intros ? ?. apply w_log_cols. Qed.
Lemma idle_cols bm metas : forall n i bs, (forall j, i <= j < i + n -> bm_index bm j = Ok false) ->
  read_log_cols n i bm metas bs = (Ok (repeat LNull n), bs).
Proof.
  induction n as [|n IH]; intros i bs H; [reflexivity|]. cbn [read_log_cols]. unfold pbind at 1, plift. rewrite H by lia.
  unfold pbind, pret. rewrite IH; [reflexivity|]. intros j Hj. apply H. lia.
Qed.
Lemma image_idle n bm metas bs a rest : N.to_nat n <= 8 * length bm -> length (filter (fun b => b) (flags_of n bm)) = 0 ->
  read_row_image n bm 0 metas bs = (Ok a, rest) -> rest = bs.
Proof.
  intros L F. unfold read_row_image, pbind, plift. change (N.shiftr (N.of_nat 0 + 7) 3) with 0%N.
  unfold read_len. destruct (N.ltb_spec (blen bs) 0) as [X|X]; [discriminate|]. cbn [N.to_nat firstn skipn mark_nulls].
  unfold read_log_row, pbind, plift. destruct (with_capacity 40 n); try discriminate.
  rewrite idle_cols; [intros E; injection E as _ <-; reflexivity|].
  intros j Hj. rewrite bm_index_spec by lia. f_equal. rewrite <- (flags_nth n) by lia. apply filter_none. exact F.
Qed.
Lemma while_idle {A} (p : parser A) bs l rest : (forall bs a rest, p bs = (Ok a, rest) -> rest = bs) ->
  while_remaining p bs = (Ok l, rest) -> l = [] /\ rest = [].
Proof.
  intros H. unfold while_remaining. generalize (length bs) at 1. intros fuel. destruct bs as [|b bs].
  - destruct fuel; cbn [pwhile]; intros E; injection E as <- <-; split; reflexivity.
  - revert l rest. induction fuel as [|fuel IH]; intros l rest; cbn [pwhile]; [discriminate|].
    unfold pbind. destruct (p (b :: bs)) as [[a| | |] r1] eqn:E1; try discriminate. rewrite (H _ _ _ E1).
    destruct (pwhile fuel p (b :: bs)) as [[l'| | |] r2] eqn:E2; try discriminate. exfalso.
    destruct (IH _ _ eq_refl) as [-> ->]. clear - E2. destruct fuel; cbn [pwhile] in E2; [discriminate|].
    unfold pbind in E2. destruct (p (b :: bs)) as [[a| | |] r1]; try discriminate.
    destruct (pwhile fuel p r1) as [[l'| | |] r2]; discriminate.
Qed.
Lemma w_while_or {A} (size : A -> nat) (p : parser A) :
  within (fun a => S (size a)) p \/ (forall bs a rest, p bs = (Ok a, rest) -> rest = bs) -> within (counted size) (while_remaining p).
Proof.
  intros [H|H]; [apply w_while, H|]. intros bs l rest E. destruct (while_idle _ _ _ _ H E) as [-> ->]. cbn. lia.
Qed.
Lemma image_within n bm c metas : within (fun r => (if c =? 0 then 0 else 1) + contents log_value_size r) (read_row_image n bm c metas).
Proof.
  unfold read_row_image. apply w_len_eq. intros s Hs. apply w_lift. intros cb _. eapply w_le; [|apply w_log_row]. intros r. cbv beta.
  rewrite N.shiftr_div_pow2 in Hs. change (2 ^ 3)%N with 8%N in Hs.
  pose proof (N.div_mod (N.of_nat c + 7) 8 ltac:(discriminate)). pose proof (N.mod_lt (N.of_nat c + 7) 8 ltac:(discriminate)).
  destruct (Nat.eqb_spec c 0); lia.
Qed.
Lemma n_cols_within : within (fun r => 1) read_n_cols.
Proof.
  unfold read_n_cols. eapply w_bind; [apply w_lei|]. intros l. destruct (lei_to_u32 l); [|apply w_fail_bind]. apply w_ret_bind.
  apply w_lift. intros ? ?. apply w_ret. reflexivity.
Qed.
Lemma n_cols_bitmap bs n len rest : read_n_cols bs = (Ok (n, len), rest) -> (n <= 8 * len)%N /\ (n < 2 ^ 32)%N.
Proof.
  unfold read_n_cols, pbind. destruct (read_len_enc_int bs) as [[l| | |] r1]; try discriminate.
  destruct (lei_to_u32 l) as [m|]; [|discriminate]. unfold pret, plift, cadd. destruct (N.leb_spec (2 ^ 32) (m + 7)); [discriminate|].
  intros E. apply okpair in E as [E _]. pose proof (f_equal fst E) as E1. pose proof (f_equal snd E) as E2. cbn [fst snd] in E1, E2. subst m. subst len.
  rewrite N.shiftr_div_pow2. change (2 ^ 3)%N with 8%N.
  pose proof (N.div_mod (n + 7) 8 ltac:(discriminate)). pose proof (N.mod_lt (n + 7) 8 ltac:(discriminate)).
  split; [lia|]. change (2 ^ 32)%N with 4294967296%N in *. lia.
Qed.
Lemma w_n_cols {B} (w : B -> nat) f :
  (forall n len, (n <= 8 * len)%N -> within w (f (n, len))) -> within w (pbind read_n_cols f).
Proof.
  intros H bs b rest. unfold pbind. destruct (read_n_cols bs) as [[[n len]| | |] r1] eqn:E; try discriminate.
  intros F. apply H in F; [|apply (n_cols_bitmap _ _ _ _ E)]. apply n_cols_within in E. lia.
Qed.
Lemma count_flags n bm c : (N.to_nat n <= 8 * length bm) -> count_present n bm = Ok c -> c = length (filter (fun b => b) (flags_of n bm)).
Proof. intros L. rewrite count_present_bits by exact L. intros E. injection E as <-. reflexivity. Qed.

Theorem w_rows el metas : within rows_size (read_rows_v2 el metas).
Proof.
  unfold read_rows_v2. apply w_lift. intros len _. eapply w_bind; [apply w_len|]. intros extra. apply w_n_cols.
  intros n bl Hn. apply w_len_eq. intros bm Hbm. apply w_lift. intros c Hc. apply count_flags in Hc; [|lia].
  eapply w_bind; [apply (w_while_or (contents log_value_size))|].
  - destruct (Nat.eqb_spec c 0) as [->|C].
    + right. intros bs a rest. apply image_idle; [lia|]. symmetry. exact Hc.
    + left. eapply w_le; [|apply image_within]. intros r. cbv beta. destruct (Nat.eqb_spec c 0); lia.
  - intros rows. apply w_ret. unfold rows_size. cbn [r_extra_data r_present_bitmap r_rows]. lia.
Qed.
Theorem w_update_rows el metas : within update_rows_size (read_update_rows el metas).
Proof.
  unfold read_update_rows. apply w_lift. intros len _. eapply w_bind; [apply w_len|]. intros extra. apply w_n_cols.
  intros n bl Hn. apply w_len_eq. intros bm Hbm. apply w_len_eq. intros am Ham.
  apply w_lift. intros c Hc. apply count_flags in Hc; [|lia]. apply w_lift. intros d Hd. apply count_flags in Hd; [|lia].
  eapply w_bind; [apply (w_while_or (fun p => contents log_value_size (fst p) + contents log_value_size (snd p)))|].
  - destruct (Nat.eqb_spec (c + d) 0) as [C|C].
    + right. assert (c = 0) as C1 by lia. assert (d = 0) as C2 by lia. intros bs a rest. unfold pbind.
      rewrite C1, C2 in *. destruct (read_row_image n bm 0 metas bs) as [[x| | |] r1] eqn:E1; try discriminate.
      apply image_idle in E1; [|lia|symmetry; exact Hc]. subst r1.
      destruct (read_row_image n am 0 metas bs) as [[y| | |] r2] eqn:E2; try discriminate.
      apply image_idle in E2; [|lia|symmetry; exact Hd]. subst r2. intros E. injection E as _ <-. reflexivity.
    + left. eapply w_bind; [apply image_within|]. intros x. eapply w_bind; [apply image_within|]. intros y.
      apply w_ret. cbn [fst snd]. destruct (Nat.eqb_spec c 0), (Nat.eqb_spec d 0); lia.
  - intros rows. apply w_ret. unfold update_rows_size. cbn [u_extra_data u_before_present_bitmap u_after_present_bitmap u_rows]. lia.
Qed.

(** ** Cells *)
Lemma cols_count bm metas : forall n i bs l rest, read_log_cols n i bm metas bs = (Ok l, rest) -> length l = n.
Proof.
  induction n as [|n IH]; intros i bs l rest; cbn [read_log_cols].
  - intros E. injection E as <- _. reflexivity.
  - unfold pbind at 1, plift. destruct (bm_index bm i) as [present| | |]; try discriminate. unfold pbind.
    destruct ((if present then match nth_error metas i with Some m => read_binlog_value m | None => ppanic PIndex end else pret LNull) bs)
      as [[v| | |] r1]; try discriminate.
    destruct (read_log_cols n (S i) bm metas r1) as [[vs| | |] r2] eqn:E2; try discriminate.
    intros E. injection E as <- _. apply IH in E2. cbn [length]. lia.
Qed.
Lemma image_count n bm c metas bs r rest : read_row_image n bm c metas bs = (Ok r, rest) -> length r = N.to_nat n.
Proof.
  unfold read_row_image, pbind, plift. destruct (read_len _ bs) as [[nb| | |] r1]; try discriminate.
  destruct (mark_nulls c 0 0 nb bm); try discriminate. unfold read_log_row, pbind, plift.
  destruct (with_capacity 40 n); try discriminate. apply cols_count.
Qed.
Lemma while_all {A} (P : A -> Prop) (p : parser A) : (forall bs a rest, p bs = (Ok a, rest) -> P a) ->
  forall bs l rest, while_remaining p bs = (Ok l, rest) -> Forall P l.
Proof.
  intros H bs. unfold while_remaining. generalize (length bs) at 1. intros fuel. revert bs.
  induction fuel as [|fuel IH]; intros [|b bs] l rest; cbn [pwhile]; try discriminate; try (intros E; injection E as <- _; constructor).
  unfold pbind. destruct (p (b :: bs)) as [[a| | |] r1] eqn:E1; try discriminate.
  destruct (pwhile fuel p r1) as [[l'| | |] r2] eqn:E2; try discriminate. intros E. injection E as <- _.
  constructor; [exact (H _ _ _ E1)|]. exact (IH _ _ _ E2).
Qed.
Lemma rows_shape el metas bs r rest : read_rows_v2 el metas bs = (Ok r, rest) ->
  Forall (fun row => length row = N.to_nat (r_n_cols r)) (r_rows r) /\ N.to_nat (r_n_cols r) <= 8 * length (r_present_bitmap r).
Proof.
  unfold read_rows_v2. unfold pbind, plift. destruct (csub el 2) as [len| | |]; try discriminate.
  destruct (read_len len bs) as [[extra| | |] b1]; try discriminate.
  destruct (read_n_cols b1) as [[[n bl]| | |] b2] eqn:En; try discriminate. apply n_cols_bitmap in En.
  unfold read_len at 1. destruct (N.ltb_spec (blen b2) bl) as [L|L]; [discriminate|].
  destruct (count_present n (firstn (N.to_nat bl) b2)) as [c| | |]; try discriminate.
  match goal with |- context [while_remaining ?p ?x] => destruct (while_remaining p x) as [[rows| | |] b3] eqn:Ew; try discriminate end.
  intros E. injection E as <- _. cbn [r_rows r_n_cols r_present_bitmap]. split.
  - apply (while_all _ _ (fun bs a rest => image_count _ _ _ _ bs a rest) _ _ _ Ew).
  - unfold blen in L. rewrite firstn_length. lia.
Qed.
Lemma cells_all l n : Forall (fun row : list binlog_value => length row = n) l -> cells l = length l * n.
Proof.
  intros H. induction H as [|row l E _ IH]; [reflexivity|]. unfold cells in *. cbn [map list_sum fold_right length].
  unfold list_sum in IH. rewrite IH, E. lia.
Qed.
Lemma counted_length {A} (w : A -> nat) l : length l <= counted w l.
Proof. induction l as [|a l IH]; [cbn; lia|]. unfold counted in *. cbn [map list_sum fold_right length]. unfold list_sum in IH. lia. Qed.
Lemma contents_counted {A} (w : A -> nat) l : length l + contents w l = counted w l.
Proof. induction l as [|a l IH]; [reflexivity|]. unfold counted, contents in *. cbn [map list_sum fold_right length]. unfold list_sum in IH. lia. Qed.
Lemma sum_square x y : 8 * x * y <= 2 * ((x + y) * (x + y)).
Proof.
  assert (forall a d, 8 * a * (a + d) <= 2 * ((a + (a + d)) * (a + (a + d)))) as H.
  { intros a d. replace (2 * ((a + (a + d)) * (a + (a + d)))) with (8 * a * (a + d) + 2 * (d * d)) by ring. apply Nat.le_add_r. }
  destruct (Nat.le_ge_cases x y) as [L|L].
  - replace y with (x + (y - x)) by lia. apply H.
  - specialize (H y (x - y)). replace (y + (x - y)) with x in H by lia. replace (8 * x * y) with (8 * y * x) by ring.
    rewrite (Nat.add_comm x y). exact H.
Qed.
Theorem rows_cells el metas bs r rest : read_rows_v2 el metas bs = (Ok r, rest) ->
  cells (r_rows r) = length (r_rows r) * N.to_nat (r_n_cols r) /\
  cells (r_rows r) <= 8 * length (r_rows r) * length (r_present_bitmap r) /\
  cells (r_rows r) <= 2 * (length bs * length bs).
Proof.
  intros E. destruct (rows_shape _ _ _ _ _ E) as [F L]. apply w_rows in E. unfold rows_size in E.
  pose proof (cells_all _ _ F) as C. pose proof (counted_length (contents log_value_size) (r_rows r)) as K.
  assert (cells (r_rows r) <= 8 * length (r_rows r) * length (r_present_bitmap r)) as B.
  { rewrite C. replace (8 * length (r_rows r) * length (r_present_bitmap r)) with (length (r_rows r) * (8 * length (r_present_bitmap r))) by lia.
    apply Nat.mul_le_mono_l. exact L. }
  split; [exact C|]. split; [exact B|]. eapply Nat.le_trans; [exact B|].
  set (x := length (r_rows r)) in *. set (y := length (r_present_bitmap r)) in *. set (z := length bs) in *.
  assert (x + y <= z) as Z by lia.
  apply Nat.le_trans with (2 * ((x + y) * (x + y))).
  - apply sum_square.
  - apply Nat.mul_le_mono_l. apply Nat.mul_le_mono; exact Z.
Qed.

(** ** A payload whose rows hold far more cells than it has bytes *)
(** [8 * k] columns of which only the first is present, in [r] rows in which it is NULL *)
Definition wide (k r : nat) : bytes :=
  xfe :: to_le_bytes 8 (8 * N.of_nat k) ++ (x01 :: repeat x00 (k - 1)) ++ repeat x01 r.
Lemma wide_length k r : 0 < k -> length (wide k r) = 9 + k + r.
Proof. intros H. unfold wide. cbn [length]. rewrite !app_length, to_le_bytes_length. cbn [length]. rewrite !repeat_length. lia. Qed.
Lemma zero_bits k j : j < 8 * k -> bm_index (repeat x00 k) j = Ok false.
Proof.
  intros H. rewrite bm_index_spec by (rewrite repeat_length; lia). f_equal. unfold bit. rewrite nth_repeat. apply N.bits_0.
Qed.
Lemma first_bits k j : 0 < k -> 0 < j < 8 * k -> bit (x01 :: repeat x00 (k - 1)) j = false.
Proof.
  intros K H. unfold bit. destruct (j / 8) as [|q] eqn:Q.
  - cbn [nth]. assert (j < 8) by (apply Nat.div_small_iff in Q; lia). rewrite Nat.mod_small by lia.
    change (Byte.to_N x01) with 1%N. assert (N.of_nat j <> 0)%N by lia. destruct (N.of_nat j); [congruence|]. reflexivity.
  - cbn [nth]. rewrite nth_repeat. apply N.bits_0.
Qed.
Lemma wide_image k metas bs : 0 < k -> (8 * N.of_nat k < 2 ^ 32)%N ->
  read_row_image (8 * N.of_nat k) (x01 :: repeat x00 (k - 1)) 1 metas (x01 :: bs) = (Ok (repeat LNull (8 * k)), bs).
Proof.
  intros K B. unfold read_row_image, pbind. change (N.shiftr (N.of_nat 1 + 7) 3) with 1%N.
  unfold read_len. destruct (N.ltb_spec (blen (x01 :: bs)) 1) as [L|L]; [unfold blen in L; cbn [length] in L; lia|].
  change (N.to_nat 1) with 1. cbn [firstn skipn]. unfold plift.
  assert (mark_nulls 1 0 0 [x01] (x01 :: repeat x00 (k - 1)) = Ok (repeat x00 k)) as ->.
  { cbn [mark_nulls]. cbn [length]. replace (8 * S (length (repeat x00 (k - 1)))) with (S (7 + 8 * length (repeat x00 (k - 1)))) by lia.
    cbn [next_set]. destruct k as [|k]; [lia|]. cbn [Nat.sub]. rewrite Nat.sub_0_r. reflexivity. }
  unfold read_log_row, pbind, plift, with_capacity.
  destruct (N.leb_spec (2 ^ 63) (40 * (8 * N.of_nat k))) as [X|X].
  { change (2 ^ 63)%N with 9223372036854775808%N in X. change (2 ^ 32)%N with 4294967296%N in B. lia. }
  replace (N.to_nat (8 * N.of_nat k)) with (8 * k) by lia. apply idle_cols. intros j Hj. apply zero_bits. lia.
Qed.
Lemma wide_rows k metas : 0 < k -> (8 * N.of_nat k < 2 ^ 32)%N -> forall r fuel, r <= fuel ->
  pwhile fuel (read_row_image (8 * N.of_nat k) (x01 :: repeat x00 (k - 1)) 1 metas) (repeat x01 r) =
  (Ok (repeat (repeat LNull (8 * k)) r), []).
Proof.
  intros K B. induction r as [|r IH]; intros fuel F; [destruct fuel; reflexivity|].
  destruct fuel as [|fuel]; [lia|]. cbn [repeat pwhile]. unfold pbind at 1. rewrite wide_image by assumption.
  unfold pbind. rewrite IH by lia. reflexivity.
Qed.
Lemma lei9 a rest : length a = 8 -> read_len_enc_int (xfe :: a ++ rest) = (Ok (Len9 (le_val a)), rest).
Proof.
  intros H. unfold read_len_enc_int, pbind at 1, read_u8. change (b2n xfe) with 254%N. cbn [N.eqb Pos.eqb].
  unfold pmap, pbind. rewrite read_le_u64_spec by exact H. reflexivity.
Qed.
Theorem wide_read k r metas : 0 < k -> (8 * N.of_nat k + 7 < 2 ^ 32)%N ->
  read_rows_v2 2 metas (wide k r) =
  (Ok (mk_rows [] (8 * N.of_nat k) (x01 :: repeat x00 (k - 1)) (repeat (repeat LNull (8 * k)) r)), []).
Proof.
  intros K B. assert (8 * N.of_nat k < 2 ^ 32)%N as B' by lia.
  unfold read_rows_v2. unfold pbind at 1, plift. change (csub 2 2) with (@Ok N 0%N). cbv iota beta.
  assert (read_len 0 (wide k r) = (Ok [], wide k r)) as E0.
  { unfold read_len. destruct (N.ltb_spec (blen (wide k r)) 0) as [L|L]; [lia|reflexivity]. }
  unfold pbind at 1. rewrite E0. cbv iota beta.
  assert (read_n_cols (wide k r) = (Ok (8 * N.of_nat k, N.of_nat k)%N, (x01 :: repeat x00 (k - 1)) ++ repeat x01 r)) as E1.
  { unfold read_n_cols. unfold pbind at 1. unfold wide. rewrite lei9 by apply to_le_bytes_length. cbv iota beta. cbn [lei_to_u32].
    rewrite to_le_bytes_mod by (change (2 ^ (8 * N.of_nat 8))%N with 18446744073709551616%N; change (2 ^ 32)%N with 4294967296%N in B; lia).
    unfold pbind at 1, pret at 1.
    unfold trunc. rewrite N.mod_small by exact B'. unfold pbind at 1, plift, cadd.
    destruct (N.leb_spec (2 ^ 32) (8 * N.of_nat k + 7)) as [X|X]; [lia|]. unfold pret. do 3 f_equal.
    rewrite N.shiftr_div_pow2. change (2 ^ 3)%N with 8%N. symmetry. apply (N.div_unique _ _ _ 7); lia. }
  unfold pbind at 1. rewrite E1. cbv iota beta.
  assert (length (x01 :: repeat x00 (k - 1)) = k) as Lb by (cbn [length]; rewrite repeat_length; lia).
  set (bm := x01 :: repeat x00 (k - 1)) in *.
  assert (read_len (N.of_nat k) (bm ++ repeat x01 r) = (Ok bm, repeat x01 r)) as E2.
  { unfold read_len, blen. rewrite app_length, Lb. destruct (N.ltb_spec (N.of_nat (k + length (repeat x01 r))) (N.of_nat k)) as [L|L]; [lia|].
    rewrite Nat2N.id. f_equal; [f_equal|].
    - rewrite firstn_app, <- Lb, Nat.sub_diag, firstn_O, app_nil_r. apply firstn_all.
    - rewrite skipn_app, <- Lb, Nat.sub_diag, skipn_all. reflexivity. }
  unfold pbind at 1. rewrite E2. cbv iota beta.
  assert (count_present (8 * N.of_nat k) bm = Ok 1) as E3.
  { rewrite count_present_bits by (rewrite Lb; lia). f_equal. unfold flags_of. replace (N.to_nat (8 * N.of_nat k)) with (S (8 * k - 1)) by lia.
    cbn [seq map]. replace (bit bm 0) with true by reflexivity. cbn [filter length]. f_equal.
    assert (forall n i, 0 < i -> i + n <= 8 * k -> filter (fun b => b) (map (bit bm) (seq i n)) = []) as Z.
    { induction n as [|n IH]; intros i Hi Hn; [reflexivity|]. cbn [seq map filter]. unfold bm at 1. rewrite first_bits by lia. apply IH; lia. }
    rewrite Z by lia. reflexivity. }
  unfold pbind at 1, plift. rewrite E3. cbv iota beta. unfold pbind, while_remaining. rewrite (wide_rows k metas K B' r) by (rewrite repeat_length; lia).
  reflexivity.
Qed.
Lemma update_shape el metas bs r rest : read_update_rows el metas bs = (Ok r, rest) ->
  Forall (fun p => length (fst p) = N.to_nat (u_n_cols r) /\ length (snd p) = N.to_nat (u_n_cols r)) (u_rows r) /\
  N.to_nat (u_n_cols r) <= 8 * length (u_before_present_bitmap r) /\ N.to_nat (u_n_cols r) <= 8 * length (u_after_present_bitmap r).
Proof.
  unfold read_update_rows. unfold pbind at 1, plift at 1. destruct (csub el 2) as [len| | |]; try discriminate.
  unfold pbind at 1. destruct (read_len len bs) as [[extra| | |] b1]; try discriminate.
  unfold pbind at 1. destruct (read_n_cols b1) as [[[n bl]| | |] b2] eqn:En; try discriminate. apply n_cols_bitmap in En.
  unfold pbind at 1. unfold read_len at 1. destruct (N.ltb_spec (blen b2) bl) as [L|L]; [discriminate|].
  unfold pbind at 1. unfold read_len at 1. destruct (N.ltb_spec (blen (skipn (N.to_nat bl) b2)) bl) as [L'|L']; [discriminate|].
  unfold pbind at 1, plift at 1. destruct (count_present n (firstn (N.to_nat bl) b2)) as [c| | |]; try discriminate.
  unfold pbind at 1, plift at 1. destruct (count_present n (firstn (N.to_nat bl) (skipn (N.to_nat bl) b2))) as [d| | |]; try discriminate.
  unfold pbind at 1.
  match goal with |- context [while_remaining ?p ?x] => destruct (while_remaining p x) as [[rows| | |] b3] eqn:Ew; try discriminate end.
  intros E. injection E as <- _. cbn [u_rows u_n_cols u_before_present_bitmap u_after_present_bitmap]. unfold blen in L, L'. split.
  - refine (while_all _ _ _ _ _ _ Ew). clear. intros bs p rest. unfold pbind.
    match goal with |- context [read_row_image n ?bm c metas bs] => destruct (read_row_image n bm c metas bs) as [[x| | |] r1] eqn:E1; try discriminate end.
    match goal with |- context [read_row_image n ?bm d metas r1] => destruct (read_row_image n bm d metas r1) as [[y| | |] r2] eqn:E2; try discriminate end.
    intros E. injection E as <- _. cbn [fst snd]. split; [exact (image_count _ _ _ _ _ _ _ E1)|exact (image_count _ _ _ _ _ _ _ E2)].
  - rewrite !firstn_length. lia.
Qed.
