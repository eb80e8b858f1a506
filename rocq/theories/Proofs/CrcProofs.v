(** * CRC-32 as a linear map; proofs for C70 *)
From Coq Require Import Lia ZifyN ZifyNat Zify.
From Verif Require Import Model.Base Spec.Wire Spec.BinlogSpec Spec.Damage Proofs.BaseLemmas Proofs.WireLemmas Proofs.EventProofs.
Open Scope N_scope.

(** one step of the register *)
Definition step (c : N) : N := if N.odd c then N.lxor (c / 2) 0xEDB88320 else c / 2.
Lemma crc_bits_S n c : crc_bits (S n) c = crc_bits n (step c).
Proof. reflexivity. Qed.
Lemma step_lt c : c < 2 ^ 32 -> step c < 2 ^ 32.
Proof. intros H. exact (crc_bits_lt 1 c H). Qed.
Lemma half_lxor a b : N.lxor a b / 2 = N.lxor (a / 2) (b / 2).
Proof. rewrite <- !N.div2_div, !N.div2_spec. apply N.shiftr_lxor. Qed.
Lemma odd_lxor a b : N.odd (N.lxor a b) = xorb (N.odd a) (N.odd b).
Proof. rewrite <- !N.bit0_odd. apply N.lxor_spec. Qed.
Lemma step_lxor a b : step (N.lxor a b) = N.lxor (step a) (step b).
Proof.
  unfold step. rewrite odd_lxor, half_lxor.
  destruct (N.odd a), (N.odd b); cbn [xorb]; apply N.bits_inj; intros i; rewrite !N.lxor_spec; 
    destruct (N.testbit (a / 2) i), (N.testbit (b / 2) i), (N.testbit 3988292384 i); reflexivity.
Qed.
Lemma step_0 : step 0 = 0. Proof. reflexivity. Qed.
Lemma step_zero c : c < 2 ^ 32 -> step c = 0 -> c = 0.
Proof.
  intros H E. unfold step in E. destruct (N.odd c) eqn:O.
  - apply N.lxor_eq in E. change (2 ^ 32) with 4294967296 in H. lia.
  - pose proof (N.div_mod c 2 ltac:(lia)) as D. rewrite E in D.
    assert (c mod 2 = 0) as M; [|lia].
    rewrite <- N.bit0_mod, N.bit0_odd, O. reflexivity.
Qed.
Lemma lxor_eq_0 a b : N.lxor a b = 0 <-> a = b.
Proof. split; [apply N.lxor_eq|intros ->; apply N.lxor_nilpotent]. Qed.
Lemma step_inj a b : a < 2 ^ 32 -> b < 2 ^ 32 -> step a = step b -> a = b.
Proof.
  intros Ha Hb E. apply lxor_eq_0. apply step_zero; [apply lxor_lt_32; assumption|].
  rewrite step_lxor. apply lxor_eq_0. exact E.
Qed.
Lemma crc_bits_lxor n : forall a b, crc_bits n (N.lxor a b) = N.lxor (crc_bits n a) (crc_bits n b).
Proof. induction n as [|n IH]; intros a b; [reflexivity|]. rewrite !crc_bits_S, step_lxor. apply IH. Qed.
Lemma crc_bits_zero n : forall c, c < 2 ^ 32 -> crc_bits n c = 0 -> c = 0.
Proof.
  induction n as [|n IH]; intros c H E; [exact E|]. rewrite crc_bits_S in E.
  apply step_zero; [exact H|]. apply IH; [apply step_lt, H|exact E].
Qed.
Lemma crc_bits_inj n a b : a < 2 ^ 32 -> b < 2 ^ 32 -> crc_bits n a = crc_bits n b -> a = b.
Proof.
  intros Ha Hb E. apply lxor_eq_0. apply (crc_bits_zero n); [apply lxor_lt_32; assumption|].
  rewrite crc_bits_lxor. apply lxor_eq_0. exact E.
Qed.
Lemma crc_bits_app m n c : crc_bits (m + n) c = crc_bits n (crc_bits m c).
Proof. revert c. induction m as [|m IH]; intros c; [reflexivity|]. cbn [Nat.add]. rewrite !crc_bits_S. apply IH. Qed.

(** ** Bit by bit *)
Definition feed (c : N) (b : bool) : N := step (N.lxor c (N.b2n b)).
Definition run (l : list bool) (c : N) : N := fold_left feed l c.
Lemma run_app l m c : run (l ++ m) c = run m (run l c).
Proof. apply fold_left_app. Qed.
Lemma b2n_lt_32 b : N.b2n b < 2 ^ 32. Proof. destruct b; reflexivity. Qed.
Lemma run_lt l : forall c, c < 2 ^ 32 -> run l c < 2 ^ 32.
Proof.
  induction l as [|b l IH]; intros c H; [exact H|]. cbn [run fold_left]. apply IH. unfold feed.
  apply step_lt, lxor_lt_32; [exact H|apply b2n_lt_32].
Qed.
(** the number with the given bits, lowest first *)
Fixpoint value (l : list bool) : N := match l with [] => 0 | b :: l => N.b2n b + 2 * value l end.
Lemma value_lt l : value l < 2 ^ N.of_nat (length l).
Proof.
  induction l as [|b l IH]; [reflexivity|]. cbn [value length]. rewrite Nat2N.inj_succ, N.pow_succ_r'.
  destruct b; cbn [N.b2n]; lia.
Qed.
Lemma value_zero l : value l = 0 -> Forall (fun b => b = false) l.
Proof.
  induction l as [|b l IH]; intros H; constructor; cbn [value] in H; [|apply IH; lia].
  destruct b; cbn [N.b2n] in H; [lia|reflexivity].
Qed.
Lemma b2n_double b v : N.b2n b + 2 * v = N.lxor (N.b2n b) (2 * v).
Proof.
  apply N.bits_inj. intros i. rewrite N.lxor_spec. destruct (N.eq_dec i 0) as [->|Hi].
  - rewrite N.add_comm, N.testbit_0_r, N.testbit_even_0. destruct b; reflexivity.
  - replace i with (N.succ (N.pred i)) by lia. rewrite (N.add_comm _ (2 * v)), N.testbit_succ_r, N.testbit_even_succ by lia.
    destruct b; cbn [N.b2n]; [|rewrite N.bits_0; destruct (N.testbit v _); reflexivity].
    change 1 with (2 * 0 + N.b2n true). rewrite N.testbit_succ_r, N.bits_0. destruct (N.testbit v _); reflexivity.
Qed.
Lemma step_double v : step (2 * v) = v.
Proof.
  unfold step. rewrite N.odd_mul, N.odd_2. cbn [andb]. rewrite N.mul_comm. apply N.div_mul. lia.
Qed.
Lemma run_value l : forall c, run l c = crc_bits (length l) (N.lxor c (value l)).
Proof.
  induction l as [|b l IH]; intros c; [cbn; symmetry; apply N.lxor_0_r|].
  cbn [run fold_left length value]. change (fold_left feed l (feed c b)) with (run l (feed c b)).
  rewrite IH, crc_bits_S. f_equal. unfold feed. rewrite b2n_double, <- N.lxor_assoc.
  rewrite (step_lxor (N.lxor c (N.b2n b))), step_double. reflexivity.
Qed.
Lemma value_byte b : value (byte_bits b) = b2n b.
Proof. destruct b; reflexivity. Qed.
Lemma run_byte b c : run (byte_bits b) c = crc_bits 8 (N.lxor c (b2n b)).
Proof. rewrite run_value, value_byte. reflexivity. Qed.
Lemma run_bits bs : forall c, run (bits bs) c = fold_left (fun c b => crc_bits 8 (N.lxor c (b2n b))) bs c.
Proof.
  induction bs as [|b bs IH]; intros c; [reflexivity|]. cbn [bits flat_map fold_left].
  rewrite run_app, run_byte. apply IH.
Qed.
Lemma bits_length bs : length (bits bs) = (8 * length bs)%nat.
Proof. induction bs as [|b bs IH]; [reflexivity|]. cbn [bits flat_map]. rewrite app_length. fold (bits bs). rewrite IH. cbn [length byte_bits map]. lia. Qed.
Lemma bits_app a b : bits (a ++ b) = bits a ++ bits b.
Proof. apply flat_map_app. Qed.

Lemma value_app l m : value (l ++ m) = value l + 2 ^ N.of_nat (length l) * value m.
Proof.
  induction l as [|b l IH]; [cbn [value app length]; change (2 ^ N.of_nat 0) with 1; lia|].
  cbn [value app length]. rewrite IH, Nat2N.inj_succ, N.pow_succ_r'. lia.
Qed.
Lemma value_wle k : forall n, n < 2 ^ (8 * N.of_nat k) -> value (bits (wle k n)) = n.
Proof.
  induction k as [|k IH]; intros n H.
  - change (2 ^ (8 * N.of_nat 0)) with 1 in H. cbn. lia.
  - cbn [wle bits flat_map]. rewrite value_app, value_byte. fold (bits (wle k (n / 256))). rewrite IH.
    + rewrite b2n_n2b by (apply N.mod_lt; lia). change (2 ^ N.of_nat (length (byte_bits _))) with 256.
      pose proof (N.div_mod n 256). lia.
    + apply N.div_lt_upper_bound; [lia|]. change 256 with (2 ^ 8). rewrite <- N.pow_add_r.
      replace (8 + 8 * N.of_nat k) with (8 * N.of_nat (S k)) by lia. exact H.
Qed.

(** ** A stored event leaves the register in one and the same state *)
Definition ones : N := 0xFFFFFFFF.
Definition final : N := crc_bits 32 ones.
Lemma crc32_run bs : crc32 bs = N.lxor (run (bits bs) ones) ones.
Proof. rewrite run_bits. reflexivity. Qed.
Lemma run_trailer bs t : t < 2 ^ 32 -> (run (bits (bs ++ wle 4 t)) ones = final <-> t = crc32 bs).
Proof.
  intros Ht. rewrite bits_app, run_app. set (s := run (bits bs) ones).
  assert (s < 2 ^ 32) as Hs by (apply run_lt; reflexivity).
  rewrite run_value, bits_length, wle_length, value_wle by (cbn; exact Ht). change (8 * 4)%nat with 32%nat.
  rewrite crc32_run. fold s. unfold final. split; intros E.
  - apply crc_bits_inj in E; [|apply lxor_lt_32; assumption|reflexivity].
    rewrite <- E, <- N.lxor_assoc, N.lxor_nilpotent, N.lxor_0_l. reflexivity.
  - subst t. rewrite <- N.lxor_assoc, N.lxor_nilpotent, N.lxor_0_l. reflexivity.
Qed.

(** ** The difference of two strings *)
Fixpoint diff (l m : list bool) : list bool :=
  match l, m with b :: l, c :: m => xorb b c :: diff l m | _, _ => [] end.
Lemma diff_length l : forall m, length m = length l -> length (diff l m) = length l.
Proof. induction l as [|b l IH]; intros [|c m] H; try discriminate; [reflexivity|]. cbn [diff length]. f_equal. apply IH. cbn in H. lia. Qed.
Lemma diff_nth l : forall m i, length m = length l ->
  (nth_error l i <> nth_error m i <-> nth i (diff l m) false = true).
Proof.
  induction l as [|b l IH]; intros [|c m] i H; try discriminate.
  - destruct i; cbn; split; congruence.
  - destruct i as [|i]; cbn [nth_error diff nth].
    + destruct b, c; cbn; split; intros X; congruence.
    + apply IH. cbn in H. lia.
Qed.
Lemma run_diff l : forall m a b, length m = length l ->
  N.lxor (run l a) (run m b) = run (diff l m) (N.lxor a b).
Proof.
  induction l as [|x l IH]; intros [|y m] a b H; try discriminate; [reflexivity|].
  cbn [run fold_left diff]. change (fold_left feed ?z ?c) with (run z c). rewrite IH by (cbn in H; lia).
  f_equal. unfold feed. rewrite <- step_lxor. f_equal. apply N.bits_inj. intros i. rewrite !N.lxor_spec.
  assert (N.testbit (N.b2n (xorb x y)) i = xorb (N.testbit (N.b2n x) i) (N.testbit (N.b2n y) i)) as ->.
  { destruct x, y; cbn [xorb N.b2n]; rewrite ?N.bits_0; destruct (N.testbit 1 i); reflexivity. }
  destruct (N.testbit a i), (N.testbit b i), (N.testbit (N.b2n x) i), (N.testbit (N.b2n y) i); reflexivity.
Qed.
Lemma run_zeros k : forall c, run (repeat false k) c = crc_bits k c.
Proof.
  induction k as [|k IH]; intros c; [reflexivity|]. cbn [repeat run fold_left].
  change (fold_left feed ?z ?c) with (run z c). rewrite IH, crc_bits_S. unfold feed. cbn [N.b2n]. rewrite N.lxor_0_r. reflexivity.
Qed.
Lemma crc_bits_0 k : crc_bits k 0 = 0.
Proof. induction k as [|k IH]; [reflexivity|]. rewrite crc_bits_S. exact IH. Qed.
Lemma false_repeat l : (forall i, nth i l false = false) -> l = repeat false (length l).
Proof.
  induction l as [|b l IH]; intros H; [reflexivity|]. cbn [length repeat]. f_equal; [exact (H O)|].
  apply IH. intros i. exact (H (S i)).
Qed.
Lemma nth_firstn_lt {A} (d : A) l : forall n i, (i < n)%nat -> nth i (firstn n l) d = nth i l d.
Proof.
  induction l as [|x l IH]; intros [|n] i H; try lia; [destruct i; reflexivity|].
  destruct i as [|i]; [reflexivity|]. cbn. apply IH. lia.
Qed.
Lemma nth_skipn' {A} (d : A) n : forall l i, nth i (skipn n l) d = nth (n + i) l d.
Proof. induction n as [|n IH]; intros [|x l] i; cbn; try reflexivity; [destruct i; reflexivity|]. apply IH. Qed.

(** a burst changes the register *)
Lemma burst_run l at_ : (forall i, nth i l false = true -> (at_ <= i < at_ + 32)%nat) ->
  run l 0 = 0 -> forall i, nth i l false = false.
Proof.
  intros H E.
  assert (forall i, (i < at_ \/ at_ + 32 <= i)%nat -> nth i l false = false) as Hf.
  { intros i Hi. destruct (nth i l false) eqn:Ei; [|reflexivity]. specialize (H i Ei). lia. }
  set (a := firstn at_ l). set (w := firstn 32 (skipn at_ l)). set (z := skipn 32 (skipn at_ l)).
  assert (l = a ++ w ++ z) as El. { unfold a, w, z. rewrite !firstn_skipn. reflexivity. }
  assert (a = repeat false (length a)) as Ea.
  { apply false_repeat. intros i. unfold a. destruct (Nat.lt_ge_cases i at_) as [Hi|Hi].
    - rewrite nth_firstn_lt by exact Hi. apply Hf. lia.
    - apply nth_overflow. rewrite firstn_length. lia. }
  assert (z = repeat false (length z)) as Ez.
  { apply false_repeat. intros i. unfold z. rewrite !nth_skipn'. apply Hf. lia. }
  rewrite El, !run_app, Ea, Ez, !run_zeros, crc_bits_0 in E.
  assert (length w <= 32)%nat as Hw by (unfold w; rewrite firstn_length; lia).
  apply crc_bits_zero in E; [|apply run_lt; reflexivity].
  rewrite run_value, N.lxor_0_l in E. apply crc_bits_zero in E.
  2:{ eapply N.lt_le_trans; [apply value_lt|]. apply N.pow_le_mono_r; lia. }
  apply value_zero in E.
  intros i. destruct (Nat.lt_ge_cases i at_) as [Hi|Hi]; [apply Hf; lia|].
  destruct (Nat.lt_ge_cases i (at_ + 32)) as [Hi2|Hi2]; [|apply Hf; lia].
  assert (nth i l false = nth (i - at_) w false) as ->.
  { unfold w. rewrite nth_firstn_lt by lia. rewrite nth_skipn'. f_equal. lia. }
  destruct (Nat.lt_ge_cases (i - at_) (length w)) as [Hn|Hn]; [|apply nth_overflow; exact Hn].
  apply (proj1 (Forall_forall _ _) E). apply nth_In. exact Hn.
Qed.
Lemma app_inj_len {A} (a : list A) : forall b c d, length a = length b -> a ++ c = b ++ d -> a = b /\ c = d.
Proof.
  induction a as [|x a IH]; intros [|y b] c d H E; try discriminate; [split; [reflexivity|exact E]|].
  injection E as -> E. destruct (IH b c d) as [-> ->]; [cbn in H; lia|exact E|split; reflexivity].
Qed.
Lemma bits_inj bs : forall bs', length bs' = length bs -> bits bs' = bits bs -> bs' = bs.
Proof.
  induction bs as [|b bs IH]; intros [|c cs] H E; try discriminate; [reflexivity|].
  cbn [bits flat_map] in E. apply app_inj_len in E as [Eb E]; [|reflexivity]. f_equal.
  - apply b2n_inj. rewrite <- !value_byte, Eb. reflexivity.
  - apply IH; [cbn in H; lia|exact E].
Qed.

(** ** Two flipped bits: the order of [step] on [1] *)
Definition steps (n : N) (c : N) : N := N.iter n step c.
Lemma steps_crc k c : crc_bits k c = steps (N.of_nat k) c.
Proof.
  revert c. induction k as [|k IH]; intros c; [reflexivity|]. rewrite crc_bits_S, IH. unfold steps.
  rewrite Nat2N.inj_succ, N.iter_succ_r. reflexivity.
Qed.
Lemma steps_add m n c : steps (m + n) c = steps m (steps n c).
Proof. apply N.iter_add. Qed.
Lemma steps_lt n : forall c, c < 2 ^ 32 -> steps n c < 2 ^ 32.
Proof. induction n using N.peano_ind; intros c H; [exact H|]. unfold steps. rewrite N.iter_succ. apply step_lt, IHn, H. Qed.
Lemma steps_inj n : forall a b, a < 2 ^ 32 -> b < 2 ^ 32 -> steps n a = steps n b -> a = b.
Proof.
  induction n using N.peano_ind; intros a b Ha Hb E; [exact E|]. unfold steps in E. rewrite !N.iter_succ in E.
  apply IHn; [exact Ha|exact Hb|]. apply step_inj; [apply steps_lt, Ha|apply steps_lt, Hb|exact E].
Qed.
(** [step]^n by repeated squaring of its matrix (the images of the 32 single bits) *)
Fixpoint times (m : list N) (v : N) : N :=
  match m with [] => 0 | x :: m => N.lxor (if N.odd v then x else 0) (times m (v / 2)) end.
Definition after (m m' : list N) : list N := map (times m) m'.
Fixpoint power (m : list N) (p : positive) : list N :=
  match p with
  | xH => m
  | xO p => let q := power m p in after q q
  | xI p => let q := power m p in after m (after q q)
  end.
Definition units : list N := map (fun i => 2 ^ N.of_nat i) (seq 0 32).
Definition matrix : list N := map step units.
Lemma times_lxor m : forall a b, times m (N.lxor a b) = N.lxor (times m a) (times m b).
Proof.
  induction m as [|x m IH]; intros a b; [reflexivity|]. cbn [times]. rewrite odd_lxor, half_lxor, IH.
  apply N.bits_inj. intros i. rewrite !N.lxor_spec.
  destruct (N.odd a), (N.odd b); cbn [xorb]; rewrite ?N.bits_0;
  destruct (N.testbit (times m (a / 2)) i), (N.testbit (times m (b / 2)) i); try destruct (N.testbit x i); reflexivity.
Qed.
Lemma times_0 m : times m 0 = 0.
Proof. induction m as [|x m IH]; [reflexivity|]. cbn [times]. change (0 / 2) with 0. rewrite IH. reflexivity. Qed.
Lemma times_map (f : N -> N) m : (forall a b, f (N.lxor a b) = N.lxor (f a) (f b)) -> f 0 = 0 ->
  forall v, times (map f m) v = f (times m v).
Proof.
  intros Hf H0. induction m as [|x m IH]; intros v; [symmetry; exact H0|]. cbn [map times]. rewrite IH, Hf.
  f_equal. destruct (N.odd v); [reflexivity|symmetry; exact H0].
Qed.
Lemma times_after m m' v : times (after m m') v = times m (times m' v).
Proof. apply times_map; [apply times_lxor|apply times_0]. Qed.
Lemma times_units k : forall i v, v < 2 ^ N.of_nat k ->
  times (map (fun i => 2 ^ N.of_nat i) (seq i k)) v = v * 2 ^ N.of_nat i.
Proof.
  induction k as [|k IH]; intros i v H; [change (2 ^ N.of_nat 0) with 1 in H; cbn [seq map times]; lia|].
  cbn [seq map times]. rewrite IH.
  2:{ apply N.div_lt_upper_bound; [lia|]. rewrite Nat2N.inj_succ, N.pow_succ_r' in H. exact H. }
  pose proof (N.div_mod v 2 ltac:(lia)) as D. set (h := v / 2) in *. clearbody h.
  rewrite Nat2N.inj_succ, N.pow_succ_r'.
  assert (v mod 2 = N.b2n (N.odd v)) as M by (rewrite <- N.bit0_odd; symmetry; apply N.bit0_mod).
  replace (h * (2 * 2 ^ N.of_nat i)) with (2 * h * 2 ^ N.of_nat i) by lia.
  replace (if N.odd v then 2 ^ N.of_nat i else 0) with (N.b2n (N.odd v) * 2 ^ N.of_nat i) by (destruct (N.odd v); cbn [N.b2n]; lia).
  rewrite <- !N.shiftl_mul_pow2, <- N.shiftl_lxor. f_equal. rewrite <- b2n_double. lia.
Qed.
Lemma times_matrix v : v < 2 ^ 32 -> times matrix v = step v.
Proof.
  intros H. unfold matrix. rewrite times_map; [|exact step_lxor|reflexivity]. unfold units.
  rewrite (times_units 32 0 v H). change (2 ^ N.of_nat 0) with 1. rewrite N.mul_1_r. reflexivity.
Qed.
Lemma steps_power p : forall v, v < 2 ^ 32 -> steps (Npos p) v = times (power matrix p) v.
Proof.
  induction p as [p IH|p IH|]; intros v H; cbn [power]; rewrite ?times_after.
  - replace (Npos (xI p)) with (1 + (Npos p + Npos p)) by lia. rewrite !steps_add.
    rewrite <- (IH v H), <- IH by (apply steps_lt, H). rewrite times_matrix by (apply steps_lt, steps_lt, H). reflexivity.
  - replace (Npos (xO p)) with (Npos p + Npos p) by lia. rewrite steps_add.
    rewrite <- (IH v H), <- IH by (apply steps_lt, H). reflexivity.
  - rewrite times_matrix by exact H. reflexivity.
Qed.
Definition order : N := 2 ^ 32 - 1.
Definition factors : list N := [3; 5; 17; 257; 65537].
Lemma steps_order : steps order 1 = 1.
Proof. unfold order. change (2 ^ 32 - 1) with 4294967295. rewrite steps_power by reflexivity. vm_compute. reflexivity. Qed.
Lemma steps_parts : Forall (fun p => steps (order / p) 1 <> 1) factors.
Proof.
  unfold factors, order. repeat constructor;
  match goal with |- steps ?n 1 <> 1 => let k := eval vm_compute in n in change n with k end;
  rewrite steps_power by reflexivity; vm_compute; discriminate.
Qed.
Lemma steps_mult d : steps d 1 = 1 -> forall k, steps (k * d) 1 = 1.
Proof.
  intros H k. induction k using N.peano_ind; [reflexivity|]. rewrite N.mul_succ_l, steps_add, H. exact IHk.
Qed.
Lemma steps_sub a b : steps (a + b) 1 = 1 -> steps a 1 = 1 -> steps b 1 = 1.
Proof.
  intros H Ha. apply (steps_inj a); [apply steps_lt; reflexivity|reflexivity|]. rewrite <- steps_add, H, Ha. reflexivity.
Qed.
Lemma steps_gcd a b : a <> 0 -> steps a 1 = 1 -> steps b 1 = 1 -> steps (N.gcd a b) 1 = 1.
Proof.
  intros Ha Ea Eb. destruct (N.gcd_bezout_pos a b ltac:(lia)) as (x & y & E).
  apply (steps_sub (y * b)); [|apply steps_mult, Eb]. rewrite N.add_comm, <- E. apply steps_mult, Ea.
Qed.
Lemma factors_prime p : In p factors -> forall g, (g | p) -> g = 1 \/ g = p.
Proof.
  intros Hp g [h E].
  assert (forallb (fun p => forallb (fun k => (p <=? N.of_nat k) || negb (p mod N.of_nat k =? 0)) (seq 2 255)) factors = true) as F by (vm_compute; reflexivity).
  rewrite forallb_forall in F. specialize (F p Hp). rewrite forallb_forall in F.
  assert (0 < p <= 65537) as B by (destruct Hp as [<-|[<-|[<-|[<-|[<-|[]]]]]]; lia).
  assert (forall x y, p = x * y -> 2 <= x <= 256 -> p <= x) as G.
  { intros x y Exy Hx. specialize (F (N.to_nat x)). rewrite in_seq, N2Nat.id in F. specialize (F ltac:(lia)).
    apply orb_true_iff in F as [F|F]; [lia|]. exfalso. rewrite Exy, N.mul_comm, N.mod_mul in F by lia. discriminate. }
  destruct (N.le_gt_cases g 256) as [Hg|Hg].
  - destruct (N.eq_dec g 0) as [->|]; [lia|]. destruct (N.eq_dec g 1) as [->|]; [left; reflexivity|]. right.
    pose proof (G g h ltac:(lia) ltac:(lia)). assert (h = 0 \/ h = 1 \/ 2 <= h) as [->|[->|]] by lia; nia.
  - destruct (N.le_gt_cases h 256) as [Hh|Hh]; [|nia].
    destruct (N.eq_dec h 0) as [->|]; [lia|]. destruct (N.eq_dec h 1) as [->|]; [right; lia|].
    pose proof (G h g E ltac:(lia)). nia.
Qed.
Lemma order_factor q : (q | order) -> q <> 1 -> exists p, In p factors /\ (p | q).
Proof.
  intros D Hq.
  assert (forall p, In p factors -> (p | q) \/ N.gcd q p = 1) as T.
  { intros p Hp. destruct (factors_prime p Hp (N.gcd q p) (N.gcd_divide_r q p)) as [E|E]; [right; exact E|left].
    rewrite <- E. apply N.gcd_divide_l. }
  unfold factors in T |- *. cbn [In] in T |- *. change order with (3 * (5 * (17 * (257 * (65537 * 1))))) in D.
  destruct (T 3) as [?|E3]; [tauto|exists 3; tauto|]. apply N.gauss in D; [|exact E3].
  destruct (T 5) as [?|E5]; [tauto|exists 5; tauto|]. apply N.gauss in D; [|exact E5].
  destruct (T 17) as [?|E17]; [tauto|exists 17; tauto|]. apply N.gauss in D; [|exact E17].
  destruct (T 257) as [?|E257]; [tauto|exists 257; tauto|]. apply N.gauss in D; [|exact E257].
  destruct (T 65537) as [?|E65537]; [tauto|exists 65537; tauto|]. apply N.gauss in D; [|exact E65537].
  apply N.divide_1_r in D. contradiction.
Qed.
Lemma steps_cycle d : 0 < d -> d < order -> steps d 1 <> 1.
Proof.
  intros H0 Hd E. pose proof (steps_gcd d order ltac:(lia) E steps_order) as Eg. set (g := N.gcd d order) in *.
  destruct (N.gcd_divide_r d order) as [q Hq]. fold g in Hq.
  assert (g <= d) as Hg by (apply N.divide_pos_le; [exact H0|apply N.gcd_divide_l]).
  assert (q <> 1) as Hq1 by nia.
  destruct (order_factor q) as (p & Hp & r & Hr); [exists g; lia|exact Hq1|].
  pose proof (proj1 (Forall_forall _ _) steps_parts p Hp) as N1. cbv beta in N1. apply N1.
  assert (p <> 0) as Hp0 by (destruct Hp as [<-|[<-|[<-|[<-|[<-|[]]]]]]; lia).
  rewrite Hq, Hr. replace (r * p * g) with (r * g * p) by lia. rewrite N.div_mul by exact Hp0. apply steps_mult, Eg.
Qed.

(** two flipped bits change the register *)
Lemma two_run l i j : (i < j)%nat -> N.of_nat (j - i) < 2 ^ 32 - 1 -> (j < length l)%nat ->
  (forall k, nth k l false = true <-> k = i \/ k = j) -> run l 0 <> 0.
Proof.
  intros Hij Hd Hj H.
  assert (forall k, k <> i -> k <> j -> nth k l false = false) as Hf.
  { intros k K1 K2. destruct (nth k l false) eqn:Ek; [|reflexivity]. apply H in Ek. lia. }
  assert (l = repeat false i ++ true :: repeat false (j - i - 1) ++ true :: repeat false (length l - j - 1)) as El.
  { apply nth_ext with (d := false) (d' := false).
    - repeat (rewrite app_length || rewrite repeat_length || cbn [length]). lia.
    - intros k Hk. destruct (Nat.lt_ge_cases k i) as [K|K].
      + rewrite app_nth1 by (rewrite repeat_length; exact K). rewrite nth_repeat. apply Hf; lia.
      + rewrite app_nth2 by (rewrite repeat_length; exact K). rewrite repeat_length.
        destruct (Nat.eq_dec k i) as [->|Ki]; [rewrite Nat.sub_diag; apply H; left; reflexivity|].
        replace (k - i)%nat with (S (k - i - 1)) by lia. cbn [nth].
        destruct (Nat.lt_ge_cases k j) as [K2|K2].
        * rewrite app_nth1 by (rewrite repeat_length; lia). rewrite nth_repeat. apply Hf; lia.
        * rewrite app_nth2 by (rewrite repeat_length; lia). rewrite repeat_length.
          destruct (Nat.eq_dec k j) as [->|Kj]; [rewrite Nat.sub_diag; apply H; right; reflexivity|].
          replace (k - i - 1 - (j - i - 1))%nat with (S (k - j - 1)) by lia. cbn [nth]. rewrite nth_repeat. apply Hf; lia. }
  rewrite El. rewrite run_app, run_zeros, crc_bits_0. cbn [run fold_left]. change (fold_left feed ?z ?c) with (run z c).
  rewrite run_app, run_zeros. cbn [run fold_left]. change (fold_left feed ?z ?c) with (run z c). rewrite run_zeros.
  intros E. apply crc_bits_zero in E.
  2:{ apply step_lt, lxor_lt_32; [apply crc_bits_lt; reflexivity|reflexivity]. }
  unfold feed in E. apply step_zero in E; [|apply lxor_lt_32; [apply crc_bits_lt; reflexivity|reflexivity]].
  apply N.lxor_eq in E. change (N.lxor 0 (N.b2n true)) with 1 in E. change (N.b2n true) with 1 in E.
  change (crc_bits (j - i - 1) (step 1)) with (crc_bits (S (j - i - 1)) 1) in E.
  rewrite steps_crc in E. apply steps_cycle in E; [exact E|lia|unfold order; lia].
Qed.

(** ** Both kinds of damage *)
Lemma damage_run bs bs' : burst 32 bs bs' \/ two_flips bs bs' -> run (bits bs) ones <> run (bits bs') ones.
Proof.
  intros H E. apply lxor_eq_0 in E.
  assert (length bs' = length bs) as Hl by (destruct H as [(_ & L & _)|(L & _)]; exact L).
  assert (length (bits bs') = length (bits bs)) as Hb by (rewrite !bits_length; lia).
  rewrite run_diff in E by exact Hb. rewrite N.lxor_nilpotent in E. destruct H as [(Hn & _ & at_ & Ha)|(_ & i & j & Hij & Hd & Hk)].
  - apply Hn, bits_inj; [exact Hl|]. apply nth_ext with (d := false) (d' := false); [exact Hb|]. intros i Hi.
    assert (nth i (diff (bits bs) (bits bs')) false = false) as F.
    { revert i Hi. intros i _. revert i. apply (burst_run _ at_); [|exact E].
      intros i Hi. apply Ha. apply diff_nth; [exact Hb|exact Hi]. }
    assert (~ nth_error (bits bs) i <> nth_error (bits bs') i) as G by (rewrite diff_nth by exact Hb; rewrite F; discriminate).
    destruct (nth_error (bits bs) i) as [x|] eqn:Ex; [|apply nth_error_None in Ex; lia].
    destruct (nth_error (bits bs') i) as [y|] eqn:Ey; [|apply nth_error_None in Ey; lia].
    apply nth_error_nth with (d := false) in Ex. apply nth_error_nth with (d := false) in Ey. rewrite Ex, Ey.
    destruct x, y; try reflexivity; exfalso; apply G; discriminate.
  - revert E. apply (two_run _ i j); [exact Hij|exact Hd| |].
    + rewrite diff_length by exact Hb. assert (flipped bs bs' j) as F by (apply Hk; right; reflexivity).
      apply nth_error_Some. intros N1. apply F. rewrite N1. symmetry. apply nth_error_None. apply nth_error_None in N1. lia.
    + intros k. rewrite <- diff_nth by exact Hb. apply Hk.
Qed.
