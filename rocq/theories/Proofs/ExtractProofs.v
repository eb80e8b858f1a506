(** Proofs about the extraction of typed values from rows. *)
From Verif Require Import Model.Base Model.BytesParser Model.Utf8 Model.Fmt Model.Time Model.Col Model.Extract
  Spec.Nums Spec.Wire Spec.Temporal Spec.Packets Spec.Values Spec.ExtractSpec
  Proofs.BaseLemmas Proofs.BytesParserProofs Proofs.TimeProofs Proofs.ValueProofs Proofs.CmdProofs Proofs.DecimalProofs.
From Coq Require Import Lia ZArith.
Open Scope N_scope.

Definition int_val (t : int_type) (n : N) : binary_value :=
  match t with ITiny => BTiny n | ISmall => BShort n | IMedium => BInt24 n | IInt => BLong n | IBig => BLongLong n end.
Definition wire_bits (t : int_type) : N :=
  match t with ITiny => 8 | ISmall => 16 | IMedium => 32 | IInt => 32 | IBig => 64 end.
Lemma read_int t n rest : n < 2 ^ wire_bits t ->
  fst (read_binary_value (int_ct t) (wle (int_wire t) n ++ rest)) = Ok (int_val t n).
Proof.
  intros H. rewrite (read_wire_value _ (int_val t n)); [reflexivity|].
  destruct t; constructor; exact H.
Qed.
Lemma wsle_bits t z : wsle (int_wire t) z = wle (int_wire t) (to_unsigned (wire_bits t) z).
Proof. destruct t; reflexivity. Qed.
Lemma to_unsigned_lt k z : to_unsigned k z < 2 ^ k.
Proof.
  unfold to_unsigned. pose proof (Z.mod_pos_bound z (2 ^ Z.of_N k) ltac:(apply Z.pow_pos_nonneg; lia)).
  apply N2Z.inj_lt. rewrite Z2N.id, N2Z.inj_pow by lia. change (Z.of_N 2) with 2%Z. lia.
Qed.
Lemma extract_signed {V} t z bs rest (f : binary_value -> res V) : signed_cell t z bs ->
  extract (int_ct t) f (bs ++ rest) = f (int_val t (to_unsigned (wire_bits t) z)).
Proof.
  intros (_ & ->). unfold extract. rewrite wsle_bits, read_int by apply to_unsigned_lt. reflexivity.
Qed.
Lemma extract_unsigned {V} t n bs rest (f : binary_value -> res V) : unsigned_cell t n bs ->
  extract (int_ct t) f (bs ++ rest) = f (int_val t n).
Proof.
  intros (H & ->). unfold extract. rewrite read_int; [reflexivity|]. destruct t; try exact H.
  cbn in *. lia.
Qed.
Lemma back t z : (- 2 ^ (Z.of_N (int_bits t) - 1) <= z < 2 ^ (Z.of_N (int_bits t) - 1))%Z ->
  to_signed (wire_bits t) (to_unsigned (wire_bits t) z) = z.
Proof. intros H. apply to_signed_unsigned; destruct t; cbn in *; lia. Qed.
Lemma back24 z : (- 2 ^ 23 <= z < 2 ^ 23)%Z ->
  i24_from_binary (BInt24 (to_unsigned 32 z)) = Ok (Some z).
Proof.
  intros H. cbn [i24_from_binary]. pose proof (to_unsigned_lt 32 z) as L.
  assert (B : to_signed 32 (to_unsigned 32 z) = z) by (apply to_signed_unsigned; lia).
  destruct (N.eqb_spec (N.land (to_unsigned 32 z) 0x800000) 0) as [E|E]; cbn [negb].
  - rewrite B. reflexivity.
  - enough (N.lor (to_unsigned 32 z) 0xff800000 = to_unsigned 32 z) as -> by (rewrite B; reflexivity).
    assert (N23 : N.testbit (to_unsigned 32 z) 23 = true).
    { destruct (N.testbit (to_unsigned 32 z) 23) eqn:T; [reflexivity|]. exfalso. apply E.
      apply N.bits_inj_0. intros i. rewrite N.land_spec. change 0x800000 with (2 ^ 23).
      destruct (N.eqb_spec 23 i) as [<-|D]; [rewrite T; reflexivity|].
      rewrite N.pow2_bits_false by exact D. apply Bool.andb_false_r. }
    assert (Hz : (z < 0)%Z).
    { destruct (Z.ltb_spec z 0); [assumption|]. exfalso.
      rewrite N.testbit_true in N23. revert N23. unfold to_unsigned. rewrite Z.mod_small by lia.
      rewrite N.div_small by (change (2 ^ 23) with 8388608; lia). discriminate. }
    assert (V : to_unsigned 32 z = 0xff800000 + Z.to_N (z + 2 ^ 23)).
    { unfold to_unsigned. change (2 ^ Z.of_N 32)%Z with 4294967296%Z. change (2 ^ 23)%Z with 8388608%Z in *.
      rewrite <- (Z.mod_unique z 4294967296 (-1) (z + 4294967296)) by lia. clear -H Hz. lia. }
    rewrite V. set (m := Z.to_N (z + 2 ^ 23)). assert (Hm : m < 2 ^ 23) by (unfold m; change (2 ^ 23)%Z with 8388608%Z in *; change (2 ^ 23) with 8388608; clear -H Hz; lia).
    assert (D : N.land 0xff800000 m = 0).
    { apply N.bits_inj_0. intros i. rewrite N.land_spec. destruct (N.ltb_spec i 23).
      - replace 0xff800000 with (511 * 2 ^ 23) by reflexivity. rewrite N.mul_pow2_bits_low by assumption. reflexivity.
      - rewrite <- (N.mod_small m (2 ^ 23)) by exact Hm. rewrite N.mod_pow2_bits_high by assumption.
        apply Bool.andb_false_r. }
    rewrite N.add_nocarry_lxor by exact D. rewrite N.lxor_lor by exact D.
    rewrite N.lor_comm, N.lor_assoc, N.lor_diag. reflexivity.
Qed.
Lemma signed_val bits f t n : In (bits, f) signed_targets -> t <> IMedium ->
  f (int_val t n) = if int_bits t <=? bits then Ok (Some (to_signed (int_bits t) n)) else Err EColType.
Proof.
  intros H M. cbn in H. decompose [or] H; try contradiction; injection H0 as <- <- || injection H1 as <- <-;
    destruct t; try congruence; reflexivity.
Qed.
Lemma unsigned_val bits f t n : In (bits, f) unsigned_targets -> t <> IMedium ->
  f (int_val t n) = if int_bits t <=? bits then Ok (Some n) else Err EColType.
Proof.
  intros H M. cbn in H. decompose [or] H; try contradiction; injection H0 as <- <- || injection H1 as <- <-;
    destruct t; try congruence; reflexivity.
Qed.
Lemma wire_int t : t <> IMedium -> wire_bits t = int_bits t.
Proof. destruct t; try reflexivity; congruence. Qed.
Lemma signed_extract bits f t z bs rest : In (bits, f) signed_targets -> t <> IMedium -> signed_cell t z bs ->
  extract (int_ct t) f (bs ++ rest) = if int_bits t <=? bits then Ok (Some z) else Err EColType.
Proof.
  intros H M C. rewrite (extract_signed t z) by exact C. rewrite (signed_val bits) by assumption.
  rewrite <- (wire_int t M), back by apply C. reflexivity.
Qed.
Lemma unsigned_extract bits f t n bs rest : In (bits, f) unsigned_targets -> t <> IMedium -> unsigned_cell t n bs ->
  extract (int_ct t) f (bs ++ rest) = if int_bits t <=? bits then Ok (Some n) else Err EColType.
Proof.
  intros H M C. rewrite (extract_unsigned t n) by exact C. rewrite (unsigned_val bits) by assumption. reflexivity.
Qed.
Lemma medium_none bits t n : t = IMedium ->
  (forall f, In (bits, f) signed_targets -> f (int_val t n) = Err EColType) /\
  (forall f, In (bits, f) unsigned_targets -> f (int_val t n) = Err EColType).
Proof.
  intros ->. split; intros f H; cbn in H; decompose [or] H; try contradiction;
    injection H0 as <- <- || injection H1 as <- <-; reflexivity.
Qed.
Lemma neg_unsigned k z : 1 <= k -> (- 2 ^ (Z.of_N k - 1) <= z < 0)%Z -> Z.of_N (to_unsigned k z) = (z + 2 ^ Z.of_N k)%Z.
Proof.
  intros Hk H. unfold to_unsigned. assert (Z.of_N k = Z.succ (Z.of_N k - 1)) as E by lia.
  assert (2 ^ Z.of_N k = 2 * 2 ^ (Z.of_N k - 1))%Z as P.
  { rewrite E at 1. apply Z.pow_succ_r. lia. }
  rewrite <- (Z.mod_unique z (2 ^ Z.of_N k) (-1) (z + 2 ^ Z.of_N k)); [|left; lia|lia].
  rewrite Z2N.id by lia. reflexivity.
Qed.
Lemma sign_confused_u bits f t z bs rest : In (bits, f) unsigned_targets -> t <> IMedium -> int_bits t <= bits ->
  signed_cell t z bs -> (z < 0)%Z ->
  exists n, extract (int_ct t) f (bs ++ rest) = Ok (Some n) /\ Z.of_N n = (z + 2 ^ Z.of_N (int_bits t))%Z.
Proof.
  intros H M L C Z0. exists (to_unsigned (wire_bits t) z). split.
  - rewrite (extract_signed t z) by exact C. rewrite (unsigned_val bits) by assumption.
    destruct (N.leb_spec (int_bits t) bits); [reflexivity|lia].
  - rewrite wire_int by exact M. apply neg_unsigned; [destruct t; cbn; lia|]. destruct C as (C & _). lia.
Qed.
Lemma sign_confused_i bits f t n bs rest : In (bits, f) signed_targets -> t <> IMedium -> int_bits t <= bits ->
  unsigned_cell t n bs -> 2 ^ (int_bits t - 1) <= n ->
  extract (int_ct t) f (bs ++ rest) = Ok (Some (Z.of_N n - 2 ^ Z.of_N (int_bits t))%Z).
Proof.
  intros H M L C N0. rewrite (extract_unsigned t n) by exact C. rewrite (signed_val bits) by assumption.
  destruct (N.leb_spec (int_bits t) bits); [|lia]. unfold to_signed.
  destruct (N.ltb_spec n (2 ^ (int_bits t - 1))); [lia|reflexivity].
Qed.

(** ** Dates *)
Lemma real_date_valid y m d : real_date y m d <-> valid_date y m d = true.
Proof.
  unfold real_date, valid_date. rewrite !Bool.andb_true_iff, !N.leb_le.
  assert (Lp : leap_year y <-> leap y = true).
  { unfold leap_year, leap. rewrite Bool.orb_true_iff, Bool.andb_true_iff, Bool.negb_true_iff, !N.eqb_eq, N.eqb_neq. tauto. }
  assert (1 <= m <= 12 \/ ~ 1 <= m <= 12) as [R|R] by lia; [|split; [intros (A & _)|intros (((A & B) & _) & _)]; lia].
  assert (m = 1 \/ m = 2 \/ m = 3 \/ m = 4 \/ m = 5 \/ m = 6 \/ m = 7 \/ m = 8 \/ m = 9 \/ m = 10 \/ m = 11 \/ m = 12) as C by lia.
  unfold month_len. destruct (leap y).
  - assert (leap_year y) as Ly by tauto. clear Lp.
    decompose [or] C; subst m; cbn [In]; (split; [intros (_ & D & K); decompose [or and] K; lia|
      intros (((_ & _) & D) & K); split; [lia|]; split; [lia|]]); try lia.
    destruct (N.eqb_spec d 29); [right; right; right; auto|lia].
  - assert (~ leap_year y) as Ly by (rewrite Lp; discriminate). clear Lp.
    decompose [or] C; subst m; cbn [In]; (split; [intros (_ & D & K); decompose [or and] K; try contradiction; lia|
      intros (((_ & _) & D) & K); split; [lia|]; split; [lia|]]); lia.
Qed.

(** ** Numbers in text *)
Lemma parse_digits_inv s : forall acc n, parse_digits s acc = Some n ->
  exists m, m < 10 ^ N.of_nat (length s) /\ s = digits (length s) m /\ n = acc * 10 ^ N.of_nat (length s) + m.
Proof.
  induction s as [|b s IH]; intros acc n H; cbn [parse_digits] in H.
  - injection H as <-. exists 0. cbn. splits; [lia|reflexivity|lia].
  - destruct (is_digit b) eqn:D; [|discriminate]. unfold is_digit in D.
    apply Bool.andb_true_iff in D as (D1 & D2). apply N.leb_le in D1, D2.
    destruct (IH _ _ H) as (m & Hm & E & ->). cbn [length].
    exists ((b2n b - 48) * 10 ^ N.of_nat (length s) + m).
    rewrite Nat2N.inj_succ, N.pow_succ_r'. set (p := 10 ^ N.of_nat (length s)) in *.
    assert (0 < p) by (unfold p; apply N.neq_0_lt_0, N.pow_nonzero; lia).
    splits; [nia| |nia].
    change (S (length s)) with (1 + length s)%nat. rewrite digits_app.
    fold p. rewrite N.div_add_l, N.div_small, N.add_0_r by lia.
    rewrite <- (digits_mod (length s)). fold p.
    rewrite N.add_comm, N.mod_add, N.mod_small by lia. rewrite <- E.
    cbn [digits app]. f_equal. rewrite N.mod_small by lia.
    replace (48 + (b2n b - 48)) with (b2n b) by lia. symmetry. apply n2b_b2n.
Qed.
Lemma parse_nat_inv s n : parse_nat s = Some n -> exists k, n < 10 ^ N.of_nat (S k) /\ s = digits (S k) n.
Proof.
  unfold parse_nat. destruct s as [|b s]; [discriminate|]. intros H.
  destruct (parse_digits_inv _ _ _ H) as (m & Hm & E & ->). rewrite N.mul_0_l, N.add_0_l.
  exists (length s). split; [exact Hm|exact E].
Qed.
Lemma b2n_is b k : b2n b = k -> b = n2b k.
Proof. intros <-. symmetry. apply n2b_b2n. Qed.
Lemma parse_u_spec k s n : parse_u k s = Ok n <-> unsigned_text n s /\ n < 2 ^ k.
Proof.
  split.
  - unfold parse_u. intros H.
    set (ds := match s with b :: r => if b2n b =? 43 then r else s | [] => [] end) in H.
    destruct (parse_nat ds) as [m|] eqn:P; [|discriminate].
    destruct (N.ltb_spec m (2 ^ k)); [|discriminate]. injection H as ->. split; [|assumption].
    destruct (parse_nat_inv _ _ P) as (j & Hj & E). unfold ds in E. clear P ds.
    destruct s as [|b r].
    + exists j, []. auto.
    + destruct (N.eqb_spec (b2n b) 43) as [B|B].
      * exists j, [n2b 43]. rewrite E. apply b2n_is in B. subst b. auto.
      * exists j, []. auto.
  - intros ((j & sign & Hj & -> & [->| ->]) & L).
    + apply parse_u_digits; assumption.
    + unfold parse_u. cbn [app]. change (b2n (n2b 43) =? 43) with true. cbv iota.
      rewrite parse_nat_digits by exact Hj. destruct (N.ltb_spec n (2 ^ k)); [reflexivity|lia].
Qed.
Lemma parse_u_err k s : (forall n, parse_u k s <> Ok n) -> parse_u k s = Err EParseValue.
Proof.
  unfold parse_u. intros H. destruct (parse_nat _); [|reflexivity].
  destruct (_ <? _); [|reflexivity]. exfalso. eapply H. reflexivity.
Qed.
Lemma parse_i_spec k s z : 1 <= k ->
  parse_i k s = Ok z <-> signed_text z s /\ (- 2 ^ (Z.of_N k - 1) <= z < 2 ^ (Z.of_N k - 1))%Z.
Proof.
  intros Hk. assert (P2 : Z.of_N (2 ^ (k - 1)) = (2 ^ (Z.of_N k - 1))%Z).
  { rewrite N2Z.inj_pow, N2Z.inj_sub by lia. reflexivity. }
  split.
  - unfold parse_i. intros H.
    set (ds := match s with b :: r => if b2n b =? 43 then (false, r) else if b2n b =? 45 then (true, r) else (false, s)
      | [] => (false, []) end) in H.
    destruct ds as [neg d] eqn:ED. destruct (parse_nat d) as [m|] eqn:P; [|discriminate].
    destruct (parse_nat_inv _ _ P) as (j & Hj & E).
    assert (signed_text (if neg then - Z.of_N m else Z.of_N m)%Z s /\
      (if neg then m <= 2 ^ (k - 1) else m < 2 ^ (k - 1)) /\ z = (if neg then - Z.of_N m else Z.of_N m)%Z) as (S & R & Ez).
    { split; [|destruct neg; [destruct (N.leb_spec m (2 ^ (k - 1)))|destruct (N.ltb_spec m (2 ^ (k - 1)))];
        try discriminate; injection H as <-; auto].
      unfold ds in ED. destruct s as [|b r].
      - injection ED as <- <-. exists j, m, []. auto 9.
      - destruct (N.eqb_spec (b2n b) 43) as [B|B].
        + injection ED as <- <-. exists j, m, [n2b 43]. apply b2n_is in B. subst b. rewrite E. auto 9.
        + destruct (N.eqb_spec (b2n b) 45) as [B'|B']; injection ED as <- <-.
          * exists j, m, [n2b 45]. apply b2n_is in B'. subst b. rewrite E. auto 9.
          * exists j, m, []. auto 9. }
    subst z. split; [exact S|]. destruct neg; lia.
  - intros ((j & n & sign & Hj & -> & C) & L).
    destruct C as [([->| ->] & ->)|(-> & ->)].
    + apply parse_i_digits; [assumption|lia].
    + unfold parse_i. cbn [app]. change (b2n (n2b 43) =? 43) with true. cbv iota.
      rewrite parse_nat_digits by exact Hj. destruct (N.ltb_spec n (2 ^ (k - 1))); [reflexivity|lia].
    + unfold parse_i. cbn [app]. change (b2n (n2b 45) =? 43) with false. change (b2n (n2b 45) =? 45) with true. cbv iota.
      rewrite parse_nat_digits by exact Hj. destruct (N.leb_spec n (2 ^ (k - 1))); [reflexivity|lia].
Qed.
Lemma parse_i_err k s : (forall n, parse_i k s <> Ok n) -> parse_i k s = Err EParseValue.
Proof.
  unfold parse_i. intros H.
  destruct (match s with b :: r => if b2n b =? 43 then (false, r) else if b2n b =? 45 then (true, r) else (false, s)
      | [] => (false, []) end) as [neg d].
  destruct (parse_nat d); [|reflexivity]. destruct neg.
  - destruct (_ <=? _); [|reflexivity]. exfalso. eapply H. reflexivity.
  - destruct (_ <? _); [|reflexivity]. exfalso. eapply H. reflexivity.
Qed.
Lemma signs_utf8 sign k n : sign = [] \/ sign = [n2b 43] \/ sign = [n2b 45] -> from_utf8 (sign ++ digits k n) = Ok (sign ++ digits k n).
Proof.
  intros H. apply from_utf8_valid, utf8_ascii. intros b Hb. apply in_app_iff in Hb as [Hb|Hb].
  - decompose [or] H; subst sign; cbn in Hb; [contradiction| |]; destruct Hb as [<-|[]]; reflexivity.
  - apply digits_in in Hb. lia.
Qed.
(** what a text integer target does *)
Lemma text_u k s : text_parsed (parse_u k) None = Ok None /\
  (forall n, text_parsed (parse_u k) (Some s) = Ok (Some n) <-> unsigned_text n s /\ n < 2 ^ k) /\
  ((forall n, unsigned_text n s -> 2 ^ k <= n) ->
     text_parsed (parse_u k) (Some s) = Err (if utf8_valid s then EParseValue else EUtf8)).
Proof.
  split; [reflexivity|]. unfold text_parsed. split.
  - intros n. split.
    + unfold from_utf8. destruct (utf8_valid s); cbn [rbind]; [|discriminate].
      destruct (parse_u k s) eqn:P; cbn [rbind]; try discriminate. intros [= <-]. apply parse_u_spec. exact P.
    + intros H. assert (parse_u k s = Ok n) as P by (apply parse_u_spec; exact H).
      destruct H as ((j & sign & Hj & -> & C) & _). rewrite signs_utf8 by (destruct C; auto). cbn [rbind].
      rewrite P. reflexivity.
  - intros H. unfold from_utf8. destruct (utf8_valid s); cbn [rbind]; [|reflexivity].
    rewrite parse_u_err; [reflexivity|]. intros n P. apply parse_u_spec in P as (P & L). specialize (H n P). lia.
Qed.
Lemma text_i k s : 1 <= k -> text_parsed (parse_i k) None = Ok None /\
  (forall z, text_parsed (parse_i k) (Some s) = Ok (Some z) <->
     signed_text z s /\ (- 2 ^ (Z.of_N k - 1) <= z < 2 ^ (Z.of_N k - 1))%Z) /\
  ((forall z, signed_text z s -> (z < - 2 ^ (Z.of_N k - 1) \/ 2 ^ (Z.of_N k - 1) <= z)%Z) ->
     text_parsed (parse_i k) (Some s) = Err (if utf8_valid s then EParseValue else EUtf8)).
Proof.
  intros Hk. split; [reflexivity|]. unfold text_parsed. split.
  - intros z. split.
    + unfold from_utf8. destruct (utf8_valid s); cbn [rbind]; [|discriminate].
      destruct (parse_i k s) eqn:P; cbn [rbind]; try discriminate. intros [= <-]. apply parse_i_spec; assumption.
    + intros H. assert (parse_i k s = Ok z) as P by (apply parse_i_spec; assumption).
      destruct H as ((j & n & sign & Hj & -> & C) & _).
      rewrite signs_utf8 by (destruct C as [([|] & _)|(C & _)]; auto). cbn [rbind].
      rewrite P. reflexivity.
  - intros H. unfold from_utf8. destruct (utf8_valid s); cbn [rbind]; [|reflexivity].
    rewrite parse_i_err; [reflexivity|]. intros n P. apply parse_i_spec in P as (P & L); [|assumption]. specialize (H n P). lia.
Qed.

(** ** Names *)
Lemma beqb_true a b : beqb a b = true <-> a = b.
Proof. destruct (beqb_spec a b); split; intros; congruence. Qed.
Lemma ext_insert_get lower names : forall idx e key,
  map_get (meta_by_name (ext_insert lower names idx e)) key =
    match map_get (rev (combine names (seq idx (length names)))) key with
    | Some i => Some i | None => map_get (meta_by_name e) key end /\
  map_get (meta_by_lc_name (ext_insert lower names idx e)) key =
    match map_get (rev (combine (map lower names) (seq idx (length names)))) key with
    | Some i => Some i | None => map_get (meta_by_lc_name e) key end.
Proof.
  assert (A : forall m1 m2 key, map_get (m1 ++ m2) key = match map_get m1 key with Some i => Some i | None => map_get m2 key end).
  { induction m1 as [|(k0, i) m1 IH]; intros; [reflexivity|]. cbn [app map_get]. destruct (beqb k0 key); [reflexivity|apply IH]. }
  induction names as [|n names IH]; intros idx e key; [split; reflexivity|].
  cbn [ext_insert length seq map combine rev].
  destruct (IH (S idx) (mk_ext ((n, idx) :: meta_by_name e) ((lower n, idx) :: meta_by_lc_name e)) key) as (-> & ->).
  cbn [meta_by_name meta_by_lc_name map_get]. rewrite !A. cbn [map_get].
  split.
  - destruct (map_get (rev _) key); [reflexivity|]. destruct (beqb n key); reflexivity.
  - destruct (map_get (rev _) key); [reflexivity|]. destruct (beqb (lower n) key); reflexivity.
Qed.
Lemma get_rev names : forall idx key,
  match map_get (rev (combine names (seq idx (length names)))) key with
  | Some i => exists j, i = (idx + j)%nat /\ last_such (fun s => s = key) names j
  | None => ~ In key names
  end.
Proof.
  induction names as [|n names IH] using rev_ind; intros idx key; [cbn; tauto|].
  rewrite app_length, seq_app. cbn [length seq].
  assert (C : forall (a : list bytes) (b : list nat) x y, length a = length b ->
    combine (a ++ [x]) (b ++ [y]) = combine a b ++ [(x, y)]).
  { induction a; intros [|] x y E; try discriminate; [reflexivity|]. cbn. f_equal. apply IHa. injection E as E. exact E. }
  rewrite C by (rewrite seq_length; reflexivity). rewrite rev_app_distr. cbn [rev app map_get].
  destruct (beqb_spec n key) as [->|D].
  - exists (length names). split; [reflexivity|]. split.
    + exists key. rewrite nth_error_app2, Nat.sub_diag by lia. auto.
    + intros j s L E. exfalso. assert (nth_error (names ++ [key]) j <> None) as K by congruence.
      apply nth_error_Some in K. rewrite app_length in K. cbn in K. lia.
  - specialize (IH idx key). destruct (map_get _ key) as [i|].
    + destruct IH as (j & -> & (s & E & ->) & U). exists j. split; [reflexivity|].
      assert (j < length names)%nat by (apply nth_error_Some; congruence). split.
      * exists key. rewrite nth_error_app1 by assumption. auto.
      * intros j' s L E'. destruct (Nat.lt_ge_cases j' (length names)).
        -- rewrite nth_error_app1 in E' by assumption. eapply U; eassumption.
        -- rewrite nth_error_app2 in E' by assumption. destruct (j' - length names)%nat as [|[|q]]; cbn in E'; congruence.
    + intros I. apply in_app_iff in I as [I|[I|[]]]; congruence.
Qed.
Lemma last_such_unique P names i j : last_such P names i -> last_such P names j -> i = j.
Proof.
  intros ((s & E & H) & U) ((s' & E' & H') & U'). destruct (Nat.lt_trichotomy i j) as [L|[L|L]]; [|exact L|].
  - exfalso. eapply U; eassumption.
  - exfalso. eapply U'; eassumption.
Qed.
Lemma last_such_map lower key names i : last_such (fun s => s = key) (map lower names) i ->
  last_such (fun s => lower s = key) names i.
Proof.
  intros ((s & E & ->) & U). split.
  - rewrite nth_error_map in E. destruct (nth_error names i) as [s|]; [|discriminate]. injection E as E. eauto.
  - intros j s L E0. apply (U j (lower s) L). rewrite nth_error_map, E0. reflexivity.
Qed.
Lemma named_col {C V} lower defs (from_col : C -> res V) row name :
  let names := map cd_name defs in
  let get := get_named_col lower (extractor_new lower defs) from_col row name in
  (forall i, last_such (fun s => s = name) names i -> get = get_col from_col row i) /\
  (forall i, ~ In name names -> last_such (fun s => lower s = lower name) names i -> get = get_col from_col row i) /\
  ((forall s, In s names -> lower s <> lower name) -> get = Err EColName).
Proof.
  cbv zeta. unfold get_named_col, extractor_new. set (names := map cd_name defs).
  destruct (ext_insert_get lower names 0 (mk_ext [] []) name) as (-> & _).
  destruct (ext_insert_get lower names 0 (mk_ext [] []) (lower name)) as (_ & ->). cbn [meta_by_name meta_by_lc_name map_get].
  pose proof (get_rev names 0 name) as G1. pose proof (get_rev (map lower names) 0 (lower name)) as G2. rewrite map_length in G2.
  destruct (map_get (rev (combine names _)) name) as [i1|].
  - destruct G1 as (j & -> & L1). splits.
    + intros i L. rewrite (last_such_unique _ _ _ _ L L1). reflexivity.
    + intros i N. exfalso. apply N. destruct L1 as ((s & E & ->) & _). eapply nth_error_In; exact E.
    + intros H. exfalso. destruct L1 as ((s & E & ->) & _). eapply H; [eapply nth_error_In; exact E|reflexivity].
  - assert (X : forall i, ~ last_such (fun s => s = name) names i).
    { intros i ((s & E & ->) & _). apply G1. eapply nth_error_In; exact E. }
    destruct (map_get (rev (combine (map lower names) _)) (lower name)) as [i2|].
    + destruct G2 as (j & -> & L2). apply last_such_map in L2. splits.
      * intros i L. exfalso. exact (X i L).
      * intros i _ L. rewrite (last_such_unique _ _ _ _ L L2). reflexivity.
      * intros H. exfalso. destruct L2 as ((s & E & E') & _). eapply H; [eapply nth_error_In; exact E|exact E'].
    + splits.
      * intros i L. exfalso. exact (X i L).
      * intros i _ ((s & E & E') & _). exfalso. apply G2. rewrite <- E'. apply in_map. eapply nth_error_In; exact E.
      * reflexivity.
Qed.
Lemma get_col_at {C V} (from_col : C -> res V) row i :
  get_col from_col row i = match nth_error row i with Some c => from_col c | None => Err EColIndex end.
Proof.
  unfold get_col. destruct (Nat.leb_spec (length row) i) as [L|L].
  - assert (nth_error row i = None) as -> by (apply nth_error_None; exact L). reflexivity.
  - destruct (nth_error row i) eqn:E; [reflexivity|]. apply nth_error_None in E. lia.
Qed.

(** ** Which columns a target takes *)
Lemma wire_takes {V} cts (f : binary_value -> res (option V)) :
  (forall ct v w, wire_value ct v w -> takes cts f ct v) ->
  forall ct v w rest, wire_value ct v w -> ct <> TNull ->
    (extract ct f (w ++ rest) = Err EColType <-> ~ In ct cts).
Proof.
  intros H ct v w rest W N. unfold extract. rewrite (read_wire_value _ v) by exact W. apply (H _ _ _ W N).
Qed.
Ltac kinds :=
  let W := fresh in
  intros ct v w W; unfold takes; intros N; destruct W; try (exfalso; apply N; reflexivity);
  repeat match goal with
  | H : string_kind ?c = Some _ |- _ => destruct c; try discriminate H; injection H as <-
  | H : is_time ?c = true |- _ => destruct c; try discriminate H; clear H
  | H : is_datetime ?c = true |- _ => destruct c; try discriminate H; clear H
  end; cbn [rmap rbind]; split; intros K; first
  [ discriminate K
  | (let I := fresh in intros I; cbn in I; decompose [or] I; try contradiction; discriminate)
  | reflexivity
  | exfalso; apply K; cbn; tauto ].
Lemma takes_i8 ct v w : wire_value ct v w -> takes [TTiny] i8_from_binary ct v.
Proof. revert ct v w. kinds. Qed.
Lemma takes_u8 ct v w : wire_value ct v w -> takes [TTiny] u8_from_binary ct v.
Proof. revert ct v w. kinds. Qed.
Lemma takes_i16 ct v w : wire_value ct v w -> takes [TTiny; TShort] i16_from_binary ct v.
Proof. revert ct v w. kinds. Qed.
Lemma takes_u16 ct v w : wire_value ct v w -> takes [TTiny; TShort] u16_from_binary ct v.
Proof. revert ct v w. kinds. Qed.
Lemma takes_i32 ct v w : wire_value ct v w -> takes [TTiny; TShort; TLong] i32_from_binary ct v.
Proof. revert ct v w. kinds. Qed.
Lemma takes_u32 ct v w : wire_value ct v w -> takes [TTiny; TShort; TLong] u32_from_binary ct v.
Proof. revert ct v w. kinds. Qed.
Lemma takes_i64 ct v w : wire_value ct v w -> takes [TTiny; TShort; TLong; TLongLong] i64_from_binary ct v.
Proof. revert ct v w. kinds. Qed.
Lemma takes_u64 ct v w : wire_value ct v w -> takes [TTiny; TShort; TLong; TLongLong] u64_from_binary ct v.
Proof. revert ct v w. kinds. Qed.
Lemma takes_i24 ct v w : wire_value ct v w -> takes [TTiny; TShort; TInt24] i24_from_binary ct v.
Proof.
  intros W. destruct W.
  all: unfold takes; intros N; cbn [i24_from_binary]; try (destruct (negb _)).
  all: repeat match goal with
  | H : string_kind ?c = Some _ |- _ => destruct c; try discriminate H; injection H as <-
  | H : is_time ?c = true |- _ => destruct c; try discriminate H; clear H
  | H : is_datetime ?c = true |- _ => destruct c; try discriminate H; clear H
  end; split; intros K; first
  [ discriminate K
  | (let I := fresh in intros I; cbn in I; decompose [or] I; try contradiction; discriminate)
  | reflexivity
  | exfalso; apply K; cbn; tauto | congruence ].
Qed.
Lemma takes_u24 ct v w : wire_value ct v w -> takes [TTiny; TShort; TInt24] u24_from_binary ct v.
Proof. revert ct v w. kinds. Qed.
Lemma takes_bool ct v w : wire_value ct v w -> takes [TTiny] bool_from_binary ct v.
Proof. revert ct v w. kinds. Qed.
Lemma takes_f32 ct v w : wire_value ct v w -> takes [TFloat] f32_from_binary ct v.
Proof. revert ct v w. kinds. Qed.
Lemma takes_f64 ct v w : wire_value ct v w -> takes [TDouble] f64_from_binary ct v.
Proof. revert ct v w. kinds. Qed.
Lemma takes_year ct v w : wire_value ct v w -> takes [TYear] year_from_binary ct v.
Proof. revert ct v w. kinds. Qed.
Lemma takes_bit ct v w : wire_value ct v w -> takes [TBit] bit_from_binary ct v.
Proof. revert ct v w. kinds. Qed.
Lemma takes_bytes ct v w : wire_value ct v w ->
  takes [TTinyBlob; TMediumBlob; TLongBlob; TBlob; TVarchar; TVarString; TString; TGeometry] bytes_from_binary ct v.
Proof. revert ct v w. kinds. Qed.
Lemma takes_time ct v w : wire_value ct v w -> takes [TTime; TTime2] time_from_binary ct v.
Proof. revert ct v w. kinds. Qed.
Lemma takes_datetime ct v w : wire_value ct v w -> takes [] datetime_from_binary ct v.
Proof. revert ct v w. kinds. Qed.
Lemma takes_string ct v w : wire_value ct v w ->
  takes [TTinyBlob; TMediumBlob; TLongBlob; TBlob; TVarchar; TVarString; TString] string_from_binary ct v.
Proof.
  intros W. destruct W.
  all: unfold takes; intros N; cbn [string_from_binary].
  all: repeat match goal with
  | H : string_kind ?c = Some _ |- _ => destruct c; try discriminate H; injection H as <-
  | H : is_time ?c = true |- _ => destruct c; try discriminate H; clear H
  | H : is_datetime ?c = true |- _ => destruct c; try discriminate H; clear H
  end; cbn [string_from_binary]; unfold from_utf8, from_ymd, naive_of_datetime, from_ymd, and_hms_micro;
    repeat match goal with |- context [if ?b then _ else _] => destruct b; cbn [rbind rmap] end; split; intros K; first
  [ discriminate K
  | (let I := fresh in intros I; cbn in I; decompose [or] I; try contradiction; discriminate)
  | reflexivity
  | exfalso; apply K; cbn; tauto | congruence ].
Qed.
Lemma takes_date ct v w : wire_value ct v w -> takes [TDate] date_from_binary ct v.
Proof.
  intros W. destruct W.
  all: unfold takes; intros N; cbn [date_from_binary].
  all: repeat match goal with
  | H : string_kind ?c = Some _ |- _ => destruct c; try discriminate H; injection H as <-
  | H : is_time ?c = true |- _ => destruct c; try discriminate H; clear H
  | H : is_datetime ?c = true |- _ => destruct c; try discriminate H; clear H
  end; cbn [date_from_binary]; unfold from_utf8, from_ymd, naive_of_datetime, from_ymd, and_hms_micro;
    repeat match goal with |- context [if ?b then _ else _] => destruct b; cbn [rbind rmap] end; split; intros K; first
  [ discriminate K
  | (let I := fresh in intros I; cbn in I; decompose [or] I; try contradiction; discriminate)
  | reflexivity
  | exfalso; apply K; cbn; tauto | congruence ].
Qed.
Lemma takes_naive_datetime ct v w : wire_value ct v w ->
  takes [TTimestamp; TTimestamp2; TDateTime; TDateTime2] naive_datetime_from_binary ct v.
Proof.
  intros W. destruct W.
  all: unfold takes; intros N; cbn [naive_datetime_from_binary].
  all: repeat match goal with
  | H : string_kind ?c = Some _ |- _ => destruct c; try discriminate H; injection H as <-
  | H : is_time ?c = true |- _ => destruct c; try discriminate H; clear H
  | H : is_datetime ?c = true |- _ => destruct c; try discriminate H; clear H
  end; cbn [naive_datetime_from_binary]; unfold from_utf8, from_ymd, naive_of_datetime, from_ymd, and_hms_micro;
    repeat match goal with |- context [if ?b then _ else _] => destruct b; cbn [rbind rmap] end; split; intros K; first
  [ discriminate K
  | (let I := fresh in intros I; cbn in I; decompose [or] I; try contradiction; discriminate)
  | reflexivity
  | exfalso; apply K; cbn; tauto | congruence ].
Qed.

(** ** Values of the other types *)
Lemma string_extract s ct wrap rest : string_kind ct = Some wrap -> N.of_nat (length s) < 2 ^ 64 ->
  In ct [TTinyBlob; TMediumBlob; TLongBlob; TBlob; TVarchar; TVarString; TString] ->
  extract ct bytes_from_binary (wlstr s ++ rest) = Ok (Some s) /\
  extract ct string_from_binary (wlstr s ++ rest) = if utf8_valid s then Ok (Some s) else Err EUtf8.
Proof.
  intros K L I. unfold extract. rewrite (read_wire_value _ (wrap s)) by (constructor; assumption). cbn [fst rbind].
  cbn in I. decompose [or] I; subst; try contradiction; injection K as <-; cbn [bytes_from_binary string_from_binary];
    (split; [reflexivity|]); unfold from_utf8; destruct (utf8_valid s); reflexivity.
Qed.
Lemma date_extract y m d w rest : wire_value TDate (BDate y m d) w ->
  (real_date y m d -> extract TDate date_from_binary (w ++ rest) = Ok (Some (mk_nd y m d))) /\
  (~ real_date y m d -> extract TDate date_from_binary (w ++ rest) = Panic PUnwrap).
Proof.
  intros W. unfold extract. rewrite (read_wire_value _ _ _ _ W). cbn [fst rbind date_from_binary]. unfold from_ymd.
  rewrite real_date_valid. destruct (valid_date y m d); split; intros H; try reflexivity; try congruence; exfalso; apply H; reflexivity.
Qed.
Lemma naive_datetime_extract ct y m d h mi s us w rest : is_datetime ct = true ->
  wire_value ct (BDateTime (mk_dt y m d h mi s us)) w ->
  (real_date y m d -> h < 24 -> mi < 60 -> s < 60 -> us < 1000000 ->
     extract ct naive_datetime_from_binary (w ++ rest) = Ok (Some (mk_ndt (mk_nd y m d) (mk_nt h mi s (us * 1000))))) /\
  (~ real_date y m d -> extract ct naive_datetime_from_binary (w ++ rest) = Panic PUnwrap).
Proof.
  intros I W. unfold extract. rewrite (read_wire_value _ _ _ _ W). cbn [fst rbind naive_datetime_from_binary].
  unfold naive_of_datetime, from_ymd, and_hms_micro, valid_hms. cbn [dt_year dt_month dt_day dt_hour dt_minute dt_second dt_micro].
  rewrite real_date_valid. destruct (valid_date y m d); cbn [rbind rmap].
  - split; [|congruence]. intros _ Hh Hm Hs Hu.
    repeat match goal with |- context [N.ltb ?a ?b] => destruct (N.ltb_spec a b); [|lia] end. reflexivity.
  - split; [congruence|reflexivity].
Qed.
Lemma medium_extract t : int_bits t <= 24 ->
  (forall z bs rest, signed_cell t z bs -> extract (int_ct t) i24_from_binary (bs ++ rest) = Ok (Some z)) /\
  (forall n bs rest, unsigned_cell t n bs -> extract (int_ct t) u24_from_binary (bs ++ rest) = Ok (Some n)).
Proof.
  intros L. split.
  - intros z bs rest C. rewrite (extract_signed t z) by exact C. pose proof (back t z (proj1 C)) as B.
    destruct t; cbn [int_bits] in L; try lia; cbn [int_val wire_bits] in *.
    + cbn [i24_from_binary]. rewrite B. reflexivity.
    + cbn [i24_from_binary]. rewrite B. reflexivity.
    + apply back24. exact (proj1 C).
  - intros n bs rest C. rewrite (extract_unsigned t n) by exact C. destruct t; cbn [int_bits] in L; try lia; reflexivity.
Qed.
Lemma mismatch ct v w rest : wire_value ct v w -> ct <> TNull ->
  (extract ct i8_from_binary (w ++ rest) = Err EColType <-> ~ In ct [TTiny]) /\
  (extract ct u8_from_binary (w ++ rest) = Err EColType <-> ~ In ct [TTiny]) /\
  (extract ct i16_from_binary (w ++ rest) = Err EColType <-> ~ In ct [TTiny; TShort]) /\
  (extract ct u16_from_binary (w ++ rest) = Err EColType <-> ~ In ct [TTiny; TShort]) /\
  (extract ct i32_from_binary (w ++ rest) = Err EColType <-> ~ In ct [TTiny; TShort; TLong]) /\
  (extract ct u32_from_binary (w ++ rest) = Err EColType <-> ~ In ct [TTiny; TShort; TLong]) /\
  (extract ct i64_from_binary (w ++ rest) = Err EColType <-> ~ In ct [TTiny; TShort; TLong; TLongLong]) /\
  (extract ct u64_from_binary (w ++ rest) = Err EColType <-> ~ In ct [TTiny; TShort; TLong; TLongLong]) /\
  (extract ct i24_from_binary (w ++ rest) = Err EColType <-> ~ In ct [TTiny; TShort; TInt24]) /\
  (extract ct u24_from_binary (w ++ rest) = Err EColType <-> ~ In ct [TTiny; TShort; TInt24]) /\
  (extract ct bool_from_binary (w ++ rest) = Err EColType <-> ~ In ct [TTiny]) /\
  (extract ct f32_from_binary (w ++ rest) = Err EColType <-> ~ In ct [TFloat]) /\
  (extract ct f64_from_binary (w ++ rest) = Err EColType <-> ~ In ct [TDouble]) /\
  (extract ct year_from_binary (w ++ rest) = Err EColType <-> ~ In ct [TYear]) /\
  (extract ct bit_from_binary (w ++ rest) = Err EColType <-> ~ In ct [TBit]) /\
  (extract ct bytes_from_binary (w ++ rest) = Err EColType <->
     ~ In ct [TTinyBlob; TMediumBlob; TLongBlob; TBlob; TVarchar; TVarString; TString; TGeometry]) /\
  (extract ct string_from_binary (w ++ rest) = Err EColType <->
     ~ In ct [TTinyBlob; TMediumBlob; TLongBlob; TBlob; TVarchar; TVarString; TString]) /\
  (extract ct time_from_binary (w ++ rest) = Err EColType <-> ~ In ct [TTime; TTime2]) /\
  (extract ct date_from_binary (w ++ rest) = Err EColType <-> ~ In ct [TDate]) /\
  (extract ct naive_datetime_from_binary (w ++ rest) = Err EColType <->
     ~ In ct [TTimestamp; TTimestamp2; TDateTime; TDateTime2]).
Proof.
  intros W N.
  split; [exact (wire_takes _ _ takes_i8 _ _ _ rest W N)|].
  split; [exact (wire_takes _ _ takes_u8 _ _ _ rest W N)|].
  split; [exact (wire_takes _ _ takes_i16 _ _ _ rest W N)|].
  split; [exact (wire_takes _ _ takes_u16 _ _ _ rest W N)|].
  split; [exact (wire_takes _ _ takes_i32 _ _ _ rest W N)|].
  split; [exact (wire_takes _ _ takes_u32 _ _ _ rest W N)|].
  split; [exact (wire_takes _ _ takes_i64 _ _ _ rest W N)|].
  split; [exact (wire_takes _ _ takes_u64 _ _ _ rest W N)|].
  split; [exact (wire_takes _ _ takes_i24 _ _ _ rest W N)|].
  split; [exact (wire_takes _ _ takes_u24 _ _ _ rest W N)|].
  split; [exact (wire_takes _ _ takes_bool _ _ _ rest W N)|].
  split; [exact (wire_takes _ _ takes_f32 _ _ _ rest W N)|].
  split; [exact (wire_takes _ _ takes_f64 _ _ _ rest W N)|].
  split; [exact (wire_takes _ _ takes_year _ _ _ rest W N)|].
  split; [exact (wire_takes _ _ takes_bit _ _ _ rest W N)|].
  split; [exact (wire_takes _ _ takes_bytes _ _ _ rest W N)|].
  split; [exact (wire_takes _ _ takes_string _ _ _ rest W N)|].
  split; [exact (wire_takes _ _ takes_time _ _ _ rest W N)|].
  split; [exact (wire_takes _ _ takes_date _ _ _ rest W N)|].
  exact (wire_takes _ _ takes_naive_datetime _ _ _ rest W N).
Qed.
Lemma my_datetime_never ct v w rest : wire_value ct v w -> ct <> TNull ->
  extract ct datetime_from_binary (w ++ rest) = Err EColType.
Proof. intros W N. apply (wire_takes _ _ takes_datetime _ _ _ rest W N). intros []. Qed.
Lemma plain_extract rest :
  (forall n, n < 2 ^ 32 -> extract TFloat f32_from_binary (wle 4 n ++ rest) = Ok (Some n)) /\
  (forall n, n < 2 ^ 64 -> extract TDouble f64_from_binary (wle 8 n ++ rest) = Ok (Some n)) /\
  (forall n, n < 2 ^ 16 -> extract TYear year_from_binary (wle 2 n ++ rest) = Ok (Some n)) /\
  (forall s, N.of_nat (length s) < 2 ^ 64 -> extract TBit bit_from_binary (wlstr s ++ rest) = Ok (Some s)) /\
  (forall s, N.of_nat (length s) < 2 ^ 64 -> extract TGeometry bytes_from_binary (wlstr s ++ rest) = Ok (Some s)) /\
  (forall ct t w, wire_value ct (BTime t) w -> extract ct time_from_binary (w ++ rest) = Ok (Some t)).
Proof.
  unfold extract. splits.
  - intros n H. rewrite (read_wire_value _ _ _ _ (wv_float n H)). reflexivity.
  - intros n H. rewrite (read_wire_value _ _ _ _ (wv_double n H)). reflexivity.
  - intros n H. rewrite (read_wire_value _ _ _ _ (wv_year n H)). reflexivity.
  - intros s H. rewrite (read_wire_value _ _ _ _ (wv_string TBit BBit s eq_refl H)). reflexivity.
  - intros s H. rewrite (read_wire_value _ _ _ _ (wv_string TGeometry BGeometry s eq_refl H)). reflexivity.
  - intros ct t w W. rewrite (read_wire_value _ _ _ _ W). reflexivity.
Qed.
Lemma utf8_if s : from_utf8 s = if utf8_valid s then Ok s else Err EUtf8.
Proof. reflexivity. Qed.
Lemma decimal_extract V (parse : bytes -> res V) s rest : N.of_nat (length s) < 2 ^ 64 ->
  extract TNewDecimal (decimal_from_binary parse) (wlstr s ++ rest) =
    if utf8_valid s then rmap Some (parse s) else Err EUtf8.
Proof.
  intros H. unfold extract. rewrite (read_wire_value _ _ _ _ (wv_string TNewDecimal BNewDecimal s eq_refl H)).
  cbn [fst rbind decimal_from_binary]. rewrite utf8_if. destruct (utf8_valid s); cbn [rbind]; [|reflexivity].
  destruct (parse s); reflexivity.
Qed.
Lemma bool_extract n rest : n < 2 ^ 8 -> extract TTiny bool_from_binary (wle 1 n ++ rest) = Ok (Some (n =? 1)).
Proof. intros H. unfold extract. rewrite (read_wire_value _ _ _ _ (wv_tiny n H)). reflexivity. Qed.
Lemma nulls :
  i8_from_binary BNull = Ok None /\ u8_from_binary BNull = Ok None /\ i16_from_binary BNull = Ok None /\
  u16_from_binary BNull = Ok None /\ i32_from_binary BNull = Ok None /\ u32_from_binary BNull = Ok None /\
  i64_from_binary BNull = Ok None /\ u64_from_binary BNull = Ok None /\ i24_from_binary BNull = Ok None /\
  u24_from_binary BNull = Ok None /\ bool_from_binary BNull = Ok None /\ f32_from_binary BNull = Ok None /\
  f64_from_binary BNull = Ok None /\ year_from_binary BNull = Ok None /\ bit_from_binary BNull = Ok None /\
  bytes_from_binary BNull = Ok None /\ string_from_binary BNull = Ok None /\ time_from_binary BNull = Ok None /\
  date_from_binary BNull = Ok None /\ naive_datetime_from_binary BNull = Ok None /\
  datetime_from_binary BNull = Ok None /\
  (forall V (parse : bytes -> res V), decimal_from_binary parse BNull = Ok None) /\
  (forall V (parse : bytes -> res V), text_parsed parse None = Ok None) /\
  (forall V (p q : bytes -> res V), naive_datetime_from_text p q None = Ok None) /\
  (forall p q, datetime_from_text_col p q None = Ok None) /\
  bool_from_text None = Ok None /\ bytes_from_text None = Ok None /\ i24_from_text None = Ok None /\
  u24_from_text None = Ok None /\ year_from_text None = Ok None /\ string_from_text None = Ok None /\
  bit_from_text None = Ok None /\ time_from_text_col None = Ok None /\
  (forall C V (f : C -> res (option V)) c, (f c = Ok None -> non_null f c = Err ENull) /\
     (forall v, f c = Ok (Some v) <-> non_null f c = Ok v) /\ (forall e, f c = Err e -> non_null f c = Err e)).
Proof.
  do 33 (split; [reflexivity|]).
  intros C V f c. unfold non_null. splits.
  - intros ->. reflexivity.
  - intros v. destruct (f c) as [[x|]| | |]; cbn [rbind]; split; intros H; congruence.
  - intros e ->. reflexivity.
Qed.
Lemma i24_text s : i24_from_text s = text_parsed (parse_i 32) s.
Proof. reflexivity. Qed.
Lemma text_unsigned k f s : In (k, f) unsigned_text_targets ->
  (forall n, f (Some s) = Ok (Some n) <-> unsigned_text n s /\ n < 2 ^ k) /\
  ((forall n, unsigned_text n s -> 2 ^ k <= n) -> f (Some s) = Err (if utf8_valid s then EParseValue else EUtf8)).
Proof.
  assert (E : In (k, f) unsigned_text_targets -> forall v, f v = text_parsed (parse_u k) v).
  { intros H. cbn in H. repeat (destruct H as [H|H]; [injection H as <- <-; reflexivity|]). contradiction. }
  intros H. rewrite (E H). exact (proj2 (text_u k s)).
Qed.
Lemma text_signed k f s : In (k, f) signed_text_targets ->
  (forall z, f (Some s) = Ok (Some z) <-> signed_text z s /\ (- 2 ^ (Z.of_N k - 1) <= z < 2 ^ (Z.of_N k - 1))%Z) /\
  ((forall z, signed_text z s -> (z < - 2 ^ (Z.of_N k - 1) \/ 2 ^ (Z.of_N k - 1) <= z)%Z) ->
     f (Some s) = Err (if utf8_valid s then EParseValue else EUtf8)).
Proof.
  assert (E : In (k, f) signed_text_targets -> 1 <= k /\ forall v, f v = text_parsed (parse_i k) v).
  { intros H. cbn in H. repeat (destruct H as [H|H]; [injection H as <- <-; split; [lia|reflexivity]|]). contradiction. }
  intros H. destruct (E H) as (Hk & ->). exact (proj2 (text_i k s Hk)).
Qed.
Lemma text_other s :
  (forall b, bool_from_text (Some s) = Ok (Some b) <-> exists n, unsigned_text n s /\ n < 256 /\ b = (n =? 1)) /\
  bytes_from_text (Some s) = Ok (Some s) /\ bit_from_text (Some s) = Ok (Some s) /\
  string_from_text (Some s) = (if utf8_valid s then Ok (Some s) else Err EUtf8) /\
  (forall V (parse : bytes -> res V), text_parsed parse (Some s) =
     if utf8_valid s then rmap Some (parse s) else Err EUtf8) /\
  (forall V (p q : bytes -> res V) v, utf8_valid s = true ->
     (p s = Ok v -> naive_datetime_from_text p q (Some s) = Ok (Some v)) /\
     (forall e, p s = Err e -> naive_datetime_from_text p q (Some s) = rmap Some (q s))) /\
  (forall p q y m d h mi sec us, utf8_valid s = true ->
     y < 10000 -> m < 13 -> d < 32 -> h < 24 -> mi < 60 -> sec < 60 -> us < 1000000 ->
     (if 19 <? N.of_nat (length s) then q s else p s) = Ok (mk_ndt (mk_nd y m d) (mk_nt h mi sec (us * 1000))) ->
     datetime_from_text_col p q (Some s) = Ok (Some (mk_dt y m d h mi sec us))).
Proof.
  split; [|splits].
  - intros b. pose proof (proj1 (proj2 (text_u 8 s))) as T. change (2 ^ 8) with 256 in T.
    unfold bool_from_text. unfold text_parsed in T. destruct (from_utf8 s) as [s'| | |] eqn:U; cbn [rbind] in *.
    + destruct (parse_u 8 s') as [m| | |] eqn:P; cbn [rbind] in *; split; intros H; try discriminate.
      * injection H as <-. exists m. destruct (proj1 (T m) eq_refl). auto.
      * destruct H as (n & A & B & ->). assert (Ok (Some m) = Ok (Some n)) as Q by (apply T; auto).
        injection Q as ->. reflexivity.
      * destruct H as (n & A & B & ->). pose proof (proj2 (T n) (conj A B)). discriminate.
      * destruct H as (n & A & B & ->). pose proof (proj2 (T n) (conj A B)). discriminate.
      * destruct H as (n & A & B & ->). pose proof (proj2 (T n) (conj A B)). discriminate.
    + split; intros H; [discriminate|]. destruct H as (n & A & B & ->). pose proof (proj2 (T n) (conj A B)). discriminate.
    + unfold from_utf8 in U. destruct (utf8_valid s); discriminate.
    + unfold from_utf8 in U. destruct (utf8_valid s); discriminate.
  - reflexivity.
  - reflexivity.
  - unfold string_from_text. rewrite utf8_if. destruct (utf8_valid s); reflexivity.
  - intros V parse. unfold text_parsed. rewrite utf8_if. destruct (utf8_valid s); cbn [rbind]; [|reflexivity].
    destruct (parse s); reflexivity.
  - intros V p q v U. unfold naive_datetime_from_text. rewrite utf8_if, U. cbn [rbind]. split.
    + intros ->. reflexivity.
    + intros e ->. destruct (q s); reflexivity.
  - intros p q y m d h mi sec us U ? ? ? ? ? ? ? H. unfold datetime_from_text_col. rewrite utf8_if, U. cbn [rbind].
    change (blen s) with (N.of_nat (length s)). rewrite H. cbn [rbind].
    unfold datetime_of_naive. cbn [ndt_date ndt_time nd_year nd_month nd_day nt_hour nt_minute nt_second nt_nano].
    unfold trunc. change (2 ^ 16) with 65536. change (2 ^ 8) with 256. rewrite !N.mod_small by lia.
    rewrite N.div_mul by lia. reflexivity.
Qed.
Lemma unique_name {C V} lower defs (from_col : C -> res V) row i d c :
  NoDup (map cd_name defs) -> nth_error defs i = Some d -> nth_error row i = Some c ->
  get_named_col lower (extractor_new lower defs) from_col row (cd_name d) = from_col c.
Proof.
  intros ND E R. rewrite (proj1 (named_col lower defs from_col row (cd_name d)) i).
  - rewrite get_col_at, R. reflexivity.
  - assert (E' : nth_error (map cd_name defs) i = Some (cd_name d)) by (rewrite nth_error_map, E; reflexivity).
    split; [eauto|]. intros j s L J ->.
    assert (i = j); [|lia]. eapply NoDup_nth_error; [exact ND| |congruence]. apply nth_error_Some. congruence.
Qed.
