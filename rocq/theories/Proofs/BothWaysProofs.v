(** Proofs about reading the same table through both protocols *)
From Coq Require Import Strings.String Lia.
From Verif Require Import Model.Base Model.Auth Model.Utf8 Model.Fmt Model.Conn Model.Time Model.Col Model.Row Model.Stmt Model.Extract Model.Session
  Spec.Nums Spec.Wire Spec.Temporal Spec.Packets Spec.Values Spec.Framing Spec.Session Spec.Commands Spec.Execute Spec.ExtractSpec
  Spec.ResultSets Spec.SqlSpec Spec.Echo Spec.BothWays Proofs.BaseLemmas Proofs.TimeProofs Proofs.ValueProofs
  Proofs.ExtractProofs Proofs.SessionProofs Proofs.CommandProofs Proofs.EchoProofs.
Open Scope N_scope.

(** ** whole numbers, binary *)
Lemma int_inv t b w : wire_value (int_ct t) b w -> exists n, b = int_val t n /\ n < 2 ^ wire_bits t.
Proof. intros W. destruct t; inversion W; subst; try discriminate; eauto. Qed.
Lemma meaning_int t u n : cell_meaning u (int_val t n) = VInt (sign_of (wire_bits t) u n).
Proof. destruct t; reflexivity. Qed.
(** what the two's complement of [bits] makes of the number *)
Definition half_read (bits : N) (u : bool) (z : Z) : Z :=
  if u && (2 ^ (Z.of_N bits - 1) <=? z)%Z then (z - 2 ^ Z.of_N bits)%Z else z.
Lemma to_signed_half k u n : 1 <= k -> to_signed k n = half_read k u (sign_of k u n).
Proof.
  intros Hk. unfold half_read, sign_of. destruct u; [|reflexivity]. cbn [andb]. unfold to_signed.
  assert (E : Z.of_N (2 ^ (k - 1)) = (2 ^ (Z.of_N k - 1))%Z).
  { rewrite N2Z.inj_pow, N2Z.inj_sub by lia. reflexivity. }
  destruct (N.ltb_spec n (2 ^ (k - 1))), (Z.leb_spec (2 ^ (Z.of_N k - 1)) (Z.of_N n)); try lia; reflexivity.
Qed.
Lemma i24_unsigned n : n < 2 ^ 24 -> i24_from_binary (BInt24 n) = Ok (Some (half_read 24 true (Z.of_N n))).
Proof.
  intros H. unfold half_read. cbn [andb]. change (2 ^ (Z.of_N 24 - 1))%Z with 8388608%Z. change (2 ^ Z.of_N 24)%Z with 16777216%Z.
  change (2 ^ 24) with 16777216 in H.
  destruct (Z.leb_spec 8388608 (Z.of_N n)) as [L|L].
  - assert (N.lor n 0xff800000 = n + 0xff000000 /\ N.land n 0x800000 = 0x800000) as (E & E0).
    { set (m := n - 8388608). assert (Hm : m < 2 ^ 23) by (change (2 ^ 23) with 8388608; lia).
      replace n with (m + 1 * 2 ^ 23) by (unfold m; change (1 * 2 ^ 23) with 8388608; lia).
      assert (D : forall a, N.land m (a * 2 ^ 23) = 0).
      { intros a. apply N.bits_inj_0. intros i. rewrite N.land_spec. destruct (N.ltb_spec i 23).
        - rewrite N.mul_pow2_bits_low by assumption. apply Bool.andb_false_r.
        - rewrite <- (N.mod_small m (2 ^ 23)) by exact Hm. rewrite N.mod_pow2_bits_high by assumption. reflexivity. }
      rewrite (N.add_nocarry_lxor m (1 * 2 ^ 23)) by apply D. rewrite N.lxor_lor by apply D. split.
      - rewrite <- N.lor_assoc. change (N.lor (1 * 2 ^ 23) 4286578688) with (511 * 2 ^ 23).
        rewrite <- !N.lxor_lor by apply D. rewrite <- !N.add_nocarry_lxor by apply D.
        change (511 * 2 ^ 23) with 4286578688. change (1 * 2 ^ 23) with 8388608. lia.
      - rewrite N.land_lor_distr_l. change 8388608 with (1 * 2 ^ 23) at 1. rewrite D. reflexivity. }
    cbn [i24_from_binary]. rewrite E0. change (negb (8388608 =? 0)) with true. cbv iota. rewrite E.
    unfold to_signed. change (2 ^ (32 - 1)) with 2147483648. change (2 ^ Z.of_N 32)%Z with 4294967296%Z.
    destruct (N.ltb_spec (n + 4278190080) 2147483648); [lia|]. do 2 f_equal. lia.
  - assert (E0 : N.land n 0x800000 = 0).
    { change 0x800000 with (1 * 2 ^ 23). apply N.bits_inj_0. intros i. rewrite N.land_spec. destruct (N.ltb_spec i 23).
      - rewrite N.mul_pow2_bits_low by assumption. apply Bool.andb_false_r.
      - rewrite <- (N.mod_small n (2 ^ 23)) by (change (2 ^ 23) with 8388608; lia). rewrite N.mod_pow2_bits_high by assumption. reflexivity. }
    cbn [i24_from_binary]. rewrite E0. change (negb (0 =? 0)) with false. cbv iota. unfold to_signed.
    change (2 ^ (32 - 1)) with 2147483648. destruct (N.ltb_spec n 2147483648); [reflexivity|lia].
Qed.
Lemma unsigned_range t u n : column_range t u (sign_of (wire_bits t) u n) -> n < 2 ^ wire_bits t ->
  (0 <= sign_of (wire_bits t) u n)%Z -> Z.of_N n = sign_of (wire_bits t) u n.
Proof.
  unfold sign_of. destruct u; [reflexivity|]. intros _ Hn. unfold to_signed.
  destruct (n <? 2 ^ (wire_bits t - 1)); [reflexivity|]. intros H. exfalso.
  assert (Z.of_N n < 2 ^ Z.of_N (wire_bits t))%Z; [|lia]. change 2%Z with (Z.of_N 2). rewrite <- N2Z.inj_pow. lia.
Qed.

(** the answer of an integer type to an integer cell *)
Lemma int_binary D (R : readers D) q bits uq t u n : ask_int q = Some (bits, uq) ->
  let z := sign_of (wire_bits t) u n in
  column_range t u z -> n < 2 ^ wire_bits t ->
  (int_fits bits t -> as_binary R q (int_val t n) =
     Ok (Some (GInt (if uq then Z.of_N n else half_read (int_bits t) u z)))) /\
  (~ int_fits bits t -> as_binary R q (int_val t n) = Err EColType).
Proof.
  intros A z C Hn. destruct q; try discriminate; injection A as <- <-; destruct t; (split; [intros (F1 & F2)|intros F]);
    try (cbn in F1; lia); try (specialize (F2 eq_refl); discriminate); try reflexivity;
    try (exfalso; apply F; split; [cbn; lia|first [reflexivity | discriminate | intros; reflexivity]]);
    try (unfold z; cbn [int_bits wire_bits]; rewrite <- to_signed_half by lia; reflexivity).
  cbn [as_binary int_val]. destruct u.
  - rewrite i24_unsigned by (unfold z, sign_of, column_range in C; cbn in C; change (2 ^ 24) with 16777216; lia). reflexivity.
  - assert (E : n = to_unsigned 32 z).
    { unfold z, sign_of. cbn [wire_bits] in *. unfold to_signed, to_unsigned. destruct (N.ltb_spec n (2 ^ (32 - 1))).
      - rewrite Z.mod_small; [lia|]. change (2 ^ Z.of_N 32)%Z with 4294967296%Z. change (2 ^ (32 - 1)) with 2147483648 in *. lia.
      - change (2 ^ Z.of_N 32)%Z with 4294967296%Z. change (2 ^ 32) with 4294967296 in Hn.
        rewrite <- (Z.mod_unique (Z.of_N n - 4294967296) 4294967296 (-1) (Z.of_N n)) by lia. lia. }
    rewrite E, back24 by exact C. reflexivity.
Qed.

(** ** whole numbers, text *)
Lemma signed_text_unique z z' s : signed_text z s -> signed_text z' s -> z = z'.
Proof.
  intros A B. set (k := 1 + Z.abs_N z + Z.abs_N z').
  assert (P : (Z.of_N (Z.abs_N z + Z.abs_N z') < 2 ^ (Z.of_N k - 1))%Z).
  { replace (Z.of_N k - 1)%Z with (Z.of_N (Z.abs_N z + Z.abs_N z')) by (unfold k; lia). apply Z.pow_gt_lin_r; lia. }
  assert (E : parse_i k s = Ok z) by (apply parse_i_spec; [unfold k; lia|]; split; [exact A|lia]).
  assert (E' : parse_i k s = Ok z') by (apply parse_i_spec; [unfold k; lia|]; split; [exact B|lia]).
  congruence.
Qed.
Lemma number_signed z s : number_shown z s -> signed_text z s.
Proof.
  intros (k & H & ->). exists k, (Z.abs_N z), (if (z <? 0)%Z then [n2b 45] else []).
  split; [exact H|]. split; [reflexivity|]. destruct (Z.ltb_spec z 0); [right|left]; (split; [auto|lia]).
Qed.
Lemma number_unsigned z s : number_shown z s -> (0 <= z)%Z -> unsigned_text (Z.to_N z) s.
Proof.
  intros (k & H & ->) Hz. exists k, []. destruct (Z.ltb_spec z 0); [lia|].
  rewrite <- Zabs2N.abs_N_nonneg by lia. auto.
Qed.
Lemma unsigned_signed n s : unsigned_text n s -> signed_text (Z.of_N n) s.
Proof. intros (k & sign & H & E & S). exists k, n, sign. auto. Qed.
(** the width the text is parsed with *)
Definition text_bits (bits : N) : N := if bits =? 24 then 32 else bits.
Lemma int_text_signed D (R : readers D) q bits z s : ask_int q = Some (bits, false) -> number_shown z s ->
  ((- 2 ^ (Z.of_N bits - 1) <= z < 2 ^ (Z.of_N bits - 1))%Z -> as_text R q (Some s) = Ok (Some (GInt z))) /\
  (forall a, as_text R q (Some s) = Ok a -> a = Some (GInt z)).
Proof.
  intros A S. apply number_signed in S.
  assert (exists f, In (text_bits bits, f) signed_text_targets /\ as_text R q (Some s) = some_as GInt (f (Some s)) /\
    forall c, f (Some c) <> Ok None) as (f & I & E & NN).
  { destruct q; try discriminate; injection A as <-; eexists; (split; [|split; [reflexivity|]]); try (cbn; tauto);
      intros c; cbn [i8_from_text i16_from_text i32_from_text i64_from_text i24_from_text]; unfold i8_from_text, i16_from_text, i32_from_text, i64_from_text, text_parsed;
      destruct (from_utf8 c); cbn [rbind]; try discriminate; match goal with |- context [parse_i ?k ?x] => destruct (parse_i k x) end; discriminate. }
  pose proof (proj1 (text_signed _ _ s I)) as T. rewrite E. split.
  - intros Hz. rewrite (proj2 (T z)); [reflexivity|]. split; [exact S|].
    destruct q; try discriminate; injection A as <-; cbn [text_bits N.eqb Pos.eqb] in *; try exact Hz. cbn in *. lia.
  - intros a Ha. destruct (f (Some s)) as [[x|]| | |] eqn:F; try discriminate.
    + destruct (proj1 (T x) eq_refl) as (F' & _). injection Ha as <-. rewrite (signed_text_unique _ _ _ F' S). reflexivity.
    + exfalso. exact (NN s F).
Qed.
Lemma int_text_unsigned D (R : readers D) q bits z s : ask_int q = Some (bits, true) -> number_shown z s ->
  ((0 <= z < 2 ^ Z.of_N bits)%Z -> as_text R q (Some s) = Ok (Some (GInt z))) /\
  (forall a, as_text R q (Some s) = Ok a -> a = Some (GInt z) /\ (0 <= z)%Z).
Proof.
  intros A S.
  assert (exists f, In (text_bits bits, f) unsigned_text_targets /\ as_text R q (Some s) = some_as (fun n => GInt (Z.of_N n)) (f (Some s)) /\
    forall c, f (Some c) <> Ok None) as (f & I & E & NN).
  { destruct q; try discriminate; injection A as <-; eexists; (split; [|split; [reflexivity|]]); try (cbn; tauto);
      intros c; cbn [u24_from_text]; unfold u8_from_text, u16_from_text, u32_from_text, u64_from_text, text_parsed;
      destruct (from_utf8 c); cbn [rbind]; try discriminate; match goal with |- context [parse_u ?k ?x] => destruct (parse_u k x) end; discriminate. }
  pose proof (proj1 (text_unsigned _ _ s I)) as T. rewrite E. split.
  - intros Hz. rewrite (proj2 (T (Z.to_N z))).
    + cbv [some_as rmap rbind option_map]. rewrite Z2N.id by lia. reflexivity.
    + split; [apply number_unsigned; [exact S|lia]|]. apply N2Z.inj_lt. rewrite Z2N.id, N2Z.inj_pow by lia.
      change (Z.of_N 2) with 2%Z. destruct q; try discriminate; injection A as <-; cbn in *; lia.
  - intros a Ha. destruct (f (Some s)) as [[x|]| | |] eqn:F; try discriminate.
    + destruct (proj1 (T x) eq_refl) as (F' & _). injection Ha as <-. apply unsigned_signed in F'.
      rewrite (signed_text_unique _ _ _ F' (number_signed _ _ S)). split; [reflexivity|].
      rewrite <- (signed_text_unique _ _ _ F' (number_signed _ _ S)). lia.
    + exfalso. exact (NN s F).
Qed.

(** ** what is sent *)
Lemma sent_inv k v w : sent k v w -> exists b, wire_value (fst k) b w /\ v = cell_meaning (snd k) b /\
  (forall t, b = BTime t -> zero_time t = true -> t_neg t = false).
Proof.
  intros (((b & W) & D) & Z). exists b. split; [exact W|].
  pose proof (cell_reads _ b w (snd k) W ltac:(congruence)) as C. rewrite D in C. injection C as C. split; [exact C|].
  intros t ->. exact (Z t W).
Qed.
Lemma extract_is {V} ct b w rest (f : binary_value -> res V) : wire_value ct b w -> extract ct f (w ++ rest) = f b.
Proof. intros W. unfold extract. rewrite (read_wire_value _ _ _ _ W). reflexivity. Qed.
Lemma int_ct_inj t t' : int_ct t = int_ct t' -> t = t'.
Proof. destruct t, t'; intros H; try discriminate; reflexivity. Qed.
Lemma from_utf8_cases s : from_utf8 s = if utf8_valid s then Ok s else Err EUtf8.
Proof. reflexivity. Qed.
Definition clockbyte (b : byte) : Prop := b2n b < 128.
Lemma digits_clock k n : Forall clockbyte (digits k n).
Proof. apply Forall_forall. intros b H. apply digits_in in H. unfold clockbyte. lia. Qed.
Ltac clock := repeat first [apply digits_clock | apply Forall_nil
  | match goal with |- Forall _ (_ ++ _) => apply Forall_app; split end
  | constructor; [reflexivity|]].
Lemma clock_utf8 s : Forall clockbyte s -> utf8_valid s = true.
Proof. intros H. apply utf8_ascii. apply Forall_forall. exact H. Qed.
Lemma date_utf8 y m d : utf8_valid (text_date y m d) = true.
Proof. apply clock_utf8. unfold text_date. clock. Qed.
Lemma datetime_utf8 dec t : utf8_valid (datetime_shown dec t) = true.
Proof. apply clock_utf8. unfold datetime_shown, text_date. destruct (dec =? 0); clock. Qed.

(** ** the same answer *)
Lemma digits_number k z : (0 <= z)%Z -> Z.to_N z < 10 ^ N.of_nat (S k) -> number_shown z (digits (S k) (Z.to_N z)).
Proof.
  intros Hz H. exists k. rewrite Zabs2N.abs_N_nonneg by exact Hz. split; [exact H|].
  destruct (Z.ltb_spec z 0); [lia|reflexivity].
Qed.
Lemma half_read_low bits u z : (u = false \/ z < 2 ^ (Z.of_N bits - 1))%Z -> half_read bits u z = z.
Proof.
  intros H. unfold half_read. destruct u; [|reflexivity]. destruct H as [H|H]; [discriminate|]. cbn [andb].
  destruct (Z.leb_spec (2 ^ (Z.of_N bits - 1)) z); [lia|reflexivity].
Qed.
Lemma int_fits_bits bits uq q t : ask_int q = Some (bits, uq) -> int_fits bits t ->
  (2 ^ (Z.of_N (int_bits t) - 1) <= 2 ^ (Z.of_N bits - 1))%Z /\ (2 ^ Z.of_N (int_bits t) <= 2 ^ Z.of_N bits)%Z.
Proof.
  intros A (F & _). split; apply Z.pow_le_mono_r; try lia; destruct t; cbn in *; lia.
Qed.
Lemma same_int D (R : readers D) q dec k z s w rest bits uq t :
  ask_int q = Some (bits, uq) -> fst k = int_ct t -> int_fits bits t ->
  (uq = snd k \/ 0 <= z < 2 ^ (Z.of_N (int_bits t) - 1))%Z ->
  shown dec k (VInt z) s -> sent k (VInt z) w ->
  as_text R q (Some s) = Ok (Some (GInt z)) /\ extract (fst k) (as_binary R q) (w ++ rest) = Ok (Some (GInt z)).
Proof.
  intros A K F C S B. destruct S as [(t' & K' & RG & S)|(K' & _)]; [|rewrite K in K'; destruct t; discriminate].
  assert (t' = t) by (apply int_ct_inj; congruence). subst t'.
  destruct (int_fits_bits _ _ _ _ A F) as (P1 & P2).
  assert (P3 : (2 ^ (Z.of_N (int_bits t) - 1) < 2 ^ Z.of_N (int_bits t))%Z) by (apply Z.pow_lt_mono_r; destruct t; cbn; lia).
  destruct (sent_inv _ _ _ B) as (b & W & V & _). rewrite (extract_is _ _ _ _ _ W). rewrite K in W.
  destruct (int_inv _ _ _ W) as (n & -> & Hn). rewrite meaning_int in V. injection V as V. subst z.
  pose proof (proj1 (int_binary D R q bits uq t (snd k) n A RG Hn) F) as E. rewrite E.
  unfold column_range in RG. destruct uq.
  - assert (Hz : (0 <= sign_of (wire_bits t) (snd k) n < 2 ^ Z.of_N (int_bits t))%Z).
    { destruct C as [C|C]; [rewrite <- C in RG |- *; exact RG|]. lia. }
    rewrite (unsigned_range t (snd k) n) by (try assumption; lia). split; [|reflexivity].
    apply (proj1 (int_text_unsigned D R q bits _ s A S)). lia.
  - assert (Hz : (snd k = false \/ sign_of (wire_bits t) (snd k) n < 2 ^ (Z.of_N (int_bits t) - 1))%Z).
    { destruct C as [C|C]; [left; congruence|right; lia]. }
    rewrite half_read_low by exact Hz. split; [|reflexivity].
    apply (proj1 (int_text_signed D R q bits _ s A S)). destruct (snd k).
    + destruct Hz as [Hz|Hz]; [discriminate|]. lia.
    + lia.
Qed.
Lemma string_inv ct b w u x : wire_value ct b w -> cell_meaning u b = VBytes x -> string_kind ct <> None ->
  exists wrap, string_kind ct = Some wrap /\ b = wrap x.
Proof.
  intros W C K. inversion W; subst; try discriminate; try (exfalso; apply K; reflexivity).
  - exists wrap. split; [assumption|]. destruct ct; cbn [string_kind] in *; try discriminate;
      injection H as <-; cbn in C; injection C as ->; reflexivity.
Qed.
Lemma shown_string dec k x s : shown dec k (VBytes x) s -> string_kind (fst k) <> None /\ s = x.
Proof. exact (fun H => H). Qed.
Lemma text_columns_string ct : In ct (TGeometry :: text_columns) -> string_kind ct <> None.
Proof. cbn. intros H. decompose [or] H; subst; try contradiction; discriminate. Qed.
Lemma same_answer D (R : readers D) q dec k v s w rest : readers_ok R ->
  asked q dec k v -> shown dec k v s -> sent k v w ->
  as_text R q (Some s) = meant R q v /\ extract (fst k) (as_binary R q) (w ++ rest) = meant R q v.
Proof.
  intros (RD & RT) A S B. destruct v as [ |z|n|n|x|y m d h mi sec us|neg days h mi sec us].
  - contradiction.
  - assert (INT : forall bits uq t, ask_int q = Some (bits, uq) -> fst k = int_ct t -> int_fits bits t ->
      (uq = snd k \/ 0 <= z < 2 ^ (Z.of_N (int_bits t) - 1))%Z -> q <> QBool ->
      as_text R q (Some s) = meant R q (VInt z) /\ extract (fst k) (as_binary R q) (w ++ rest) = meant R q (VInt z)).
    { intros bits uq t A1 A2 A3 A4 NB. pose proof (same_int D R q dec k z s w rest bits uq t A1 A2 A3 A4 S B) as E.
      destruct q; try discriminate; exact E. }
    destruct q; cbn [asked] in A; try (destruct A as (bits & uq & t & A1 & A2 & A3 & A4); try discriminate; eapply INT; eauto; discriminate).
    + destruct A as (K & Hz). destruct S as [(t & K' & RG & S)|(K' & _)]; [|congruence].
      assert (t = ITiny) by (apply int_ct_inj; rewrite <- K', K; reflexivity). subst t.
      destruct (sent_inv _ _ _ B) as (b & W & V & _). rewrite (extract_is _ _ _ _ _ W). rewrite K' in W.
      destruct (int_inv _ _ _ W) as (n & -> & Hn). rewrite meaning_int in V. injection V as V. subst z.
      pose proof (unsigned_range ITiny (snd k) n RG Hn Hz) as E. change (wire_bits ITiny) with 8 in E; cbn [wire_bits] in *; rewrite <- E in S |- *.
      cbn [meant as_binary as_text]. split.
      * rewrite (proj2 (proj1 (text_other s) (n =? 1))).
        { unfold some_as. cbn [rmap rbind option_map]. do 3 f_equal. destruct (N.eqb_spec n 1), (Z.eqb_spec (Z.of_N n) 1); lia || reflexivity. }
        exists n. split; [|split; [exact Hn|reflexivity]]. rewrite <- (N2Z.id n). apply number_unsigned; [exact S|lia].
      * cbn [int_val bool_from_binary]. unfold some_as. cbn [rmap rbind option_map]. do 3 f_equal.
        destruct (N.eqb_spec n 1), (Z.eqb_spec (Z.of_N n) 1); lia || reflexivity.
    + destruct S as [(t & K' & _)|(_ & Hz & ->)]; [rewrite A in K'; destruct t; discriminate|].
      destruct (sent_inv _ _ _ B) as (b & W & V & _). rewrite (extract_is _ _ _ _ _ W). rewrite A in W.
      inversion W; subst; try discriminate. cbn [cell_meaning] in V. injection V as V.
      assert (N : VInt (sign_of 16 (snd k) n) = VInt (Z.of_N (Z.to_N z))) by (rewrite Z2N.id by lia; congruence).
      pose proof (small_back 16 (snd k) n (Z.to_N z) ltac:(assumption) ltac:(lia) N) as E.
      cbn [meant as_binary as_text year_from_binary]. split.
      * assert (P : year_from_text (Some (digits 4 (Z.to_N z))) = Ok (Some (Z.to_N z))).
        { apply (proj1 (text_unsigned 16 year_from_text _ ltac:(cbn; tauto))). split.
          - apply number_unsigned; [|lia]. apply digits_number; [lia|]. change (10 ^ N.of_nat 4) with 10000. lia.
          - change (2 ^ 16) with 65536. lia. }
        rewrite P. unfold some_as. cbn [rmap rbind option_map]. rewrite Z2N.id by lia. reflexivity.
      * unfold some_as. cbn [rmap rbind option_map]. rewrite E, Z2N.id by lia. reflexivity.
  - destruct q; contradiction.
  - destruct q; contradiction.
  - apply shown_string in S as (SK & ->). destruct (sent_inv _ _ _ B) as (b & W & V & _). symmetry in V.
    rewrite (extract_is _ _ _ _ _ W). destruct (string_inv _ _ _ _ _ W V SK) as (wrap & K & ->).
    destruct q; cbn [asked] in A; try contradiction; cbn [meant as_text as_binary].
    + rewrite A in K. injection K as <-. unfold text_parsed, decimal_from_binary. rewrite from_utf8_cases.
      destruct (utf8_valid x); [|split; reflexivity]. cbn [rbind]. destruct (rd_decimal R x); split; reflexivity.
    + rewrite A in K. injection K as <-. split; reflexivity.
    + unfold string_from_text. rewrite from_utf8_cases. cbn in A.
      decompose [or] A; try contradiction; match goal with H : _ = fst k |- _ => rewrite <- H in K end; cbn [string_kind] in K; injection K as <-;
        cbn [string_from_binary]; rewrite from_utf8_cases; destruct (utf8_valid x); split; reflexivity.
    + cbn in A. decompose [or] A; try contradiction; match goal with H : _ = fst k |- _ => rewrite <- H in K end; cbn [string_kind] in K; injection K as <-;
        split; reflexivity.
  - destruct (sent_inv _ _ _ B) as (b & W & V & _). rewrite (extract_is _ _ _ _ _ W).
    destruct q; cbn [asked] in A; try contradiction; destruct A as (K & RL).
    + destruct S as [(_ & Hy & ->)|([K'|K'] & _)]; [|congruence|congruence]. cbn [meant as_text as_binary].
      rewrite K in W. assert (b = BDate y m d) as ->.
      { inversion W; subst; try discriminate; cbn [cell_meaning] in V; injection V as -> -> ->; reflexivity. }
      cbn [date_from_binary]. unfold text_parsed. rewrite from_utf8_cases, date_utf8. cbn [rbind]. rewrite RD by assumption.
      unfold from_ymd. apply real_date_valid in RL. rewrite RL. split; reflexivity.
    + destruct S as [(K' & _)|(_ & ST & ->)]; [destruct K; congruence|]. cbn [meant as_text as_binary].
      assert (b = BDateTime (mk_dt y m d h mi sec us)) as ->.
      { destruct K as [K|K]; rewrite K in W; inversion W; subst; try discriminate; cbn [cell_meaning dt_year dt_month dt_day dt_hour dt_minute dt_second dt_micro] in V;
          injection V; intros; subst; reflexivity. }
      specialize (RT dec _ ST RL). unfold naive_datetime_from_text. rewrite from_utf8_cases, datetime_utf8. cbn [rbind].
      destruct ST as (_ & _ & _ & _ & Hh & Hm & Hs & Hu & _). cbn [dt_year dt_month dt_day dt_hour dt_minute dt_second dt_micro] in *.
      split.
      * destruct (dec =? 0); [rewrite RT; reflexivity|]. destruct RT as ((e & E) & RT). rewrite E, RT. reflexivity.
      * rewrite (datetime_back _ y m d h mi sec us) by (assumption || reflexivity). reflexivity.
  - destruct q; cbn [asked] in A; try contradiction. destruct A as (A1 & A2). destruct S as (K & ST & ->).
    destruct (sent_inv _ _ _ B) as (b & W & V & Z). rewrite (extract_is _ _ _ _ _ W). cbn [meant as_text as_binary].
    unfold time_from_text_col. rewrite (time_text_exact dec (mk_time neg days h mi sec us)) by assumption.
    split; [reflexivity|]. rewrite K in W.
    assert (exists t, b = BTime t) as (t & ->) by (inversion W; subst; try discriminate; eauto).
    cbn [cell_meaning] in V. specialize (Z t eq_refl). destruct t as [n' d' h' m' s' u']. cbn [t_neg t_days t_hour t_minute t_second t_micro] in *.
    unfold vtime in V. injection V as V -> -> -> -> ->. cbn [time_from_binary]. unfold some_as. cbn [rmap rbind option_map].
    do 4 f_equal. destruct (zero_time (mk_time n' d' h' m' s' u')) eqn:ZT.
    + rewrite (Z eq_refl). rewrite V. rewrite Bool.andb_false_r. reflexivity.
    + rewrite V. cbn [negb]. rewrite Bool.andb_true_r. reflexivity.
Qed.

(** ** when both protocols answer, they agree but for the listed cells *)
Lemma rmap_ok {A B} (f : A -> B) r b : rmap f r = Ok b -> exists a, r = Ok a /\ f a = b.
Proof. destruct r; cbn; intros H; try discriminate. injection H as H. eauto. Qed.
Lemma half_read_same bits u z : half_read bits u z = z <-> ~ (u = true /\ (2 ^ (Z.of_N bits - 1) <= z)%Z).
Proof.
  unfold half_read. destruct u; cbn [andb]; [|split; [intros _ (H & _); discriminate|reflexivity]].
  destruct (Z.leb_spec (2 ^ (Z.of_N bits - 1)) z) as [H|H].
  - pose proof (Z.pow_pos_nonneg 2 (Z.of_N bits) ltac:(lia) ltac:(lia)). split; [lia|intros N; exfalso; apply N; auto].
  - split; [lia|reflexivity].
Qed.
Lemma agree_int D (R : readers D) q dec k z s w rest bits uq a b :
  ask_int q = Some (bits, uq) -> shown dec k (VInt z) s -> sent k (VInt z) w ->
  as_text R q (Some s) = Ok a -> extract (fst k) (as_binary R q) (w ++ rest) = Ok b ->
  (a = b <-> ~ differs q dec k (VInt z)).
Proof.
  intros A S B T X. destruct (sent_inv _ _ _ B) as (v & W & V & _). rewrite (extract_is _ _ _ _ _ W) in X.
  destruct S as [(t & K & RG & S)|(K & _)].
  2:{ exfalso. rewrite K in W. inversion W; subst; try discriminate. destruct q; discriminate. }
  rewrite K in W. destruct (int_inv _ _ _ W) as (n & -> & Hn). rewrite meaning_int in V. injection V as V. subst z.
  destruct (int_binary D R q bits uq t (snd k) n A RG Hn) as (I1 & I2).
  assert (F : int_fits bits t).
  { destruct (N.leb_spec (int_bits t) bits) as [L|L].
    - destruct t; try (split; [exact L|discriminate]). destruct (N.eqb_spec bits 24) as [->|NE]; [split; [exact L|reflexivity]|].
      rewrite I2 in X; [discriminate|]. intros (_ & F). apply NE, F. reflexivity.
    - rewrite I2 in X; [discriminate|]. intros (F & _). lia. }
  rewrite (I1 F) in X. injection X as <-. cbn [differs]. destruct uq.
  - destruct (proj2 (int_text_unsigned D R q bits _ s A S) a T) as (-> & Hz).
    rewrite (unsigned_range t (snd k) n) by assumption. split; [|reflexivity]. intros _ ((bits' & A') & _). congruence.
  - rewrite (proj2 (int_text_signed D R q bits _ s A S) a T). split.
    + intros E. injection E as E. symmetry in E. apply half_read_same in E. intros (_ & U & t' & K' & H). apply E. split; [exact U|].
      rewrite K in K'. apply int_ct_inj in K'. subst t'. exact H.
    + intros N. do 2 f_equal. symmetry. apply half_read_same. intros (U & H). apply N. split; [eauto|]. split; [exact U|].
      exists t. auto.
Qed.
Lemma agree D (R : readers D) q dec k v s w rest a b : readers_ok R -> shown dec k v s -> sent k v w ->
  as_text R q (Some s) = Ok a -> extract (fst k) (as_binary R q) (w ++ rest) = Ok b ->
  (a = b <-> ~ differs q dec k v).
Proof.
  intros RO S B T X.
  assert (SAME : asked q dec k v -> a = b).
  { intros A. destruct (same_answer D R q dec k v s w rest RO A S B) as (E1 & E2). congruence. }
  destruct v as [ |z|n|n|x|y m d h mi sec us|neg days h mi sec us].
  - contradiction.
  - destruct (ask_int q) as [(bits, uq)|] eqn:A; [eapply agree_int; eassumption|].
    assert (ND : ~ differs q dec k (VInt z)) by (intros ((bits & H) & _); congruence).
    split; [intros _; exact ND|intros _]. apply SAME.
    destruct (sent_inv _ _ _ B) as (v & W & V & _). rewrite (extract_is _ _ _ _ _ W) in X.
    destruct S as [(t & K & RG & S)|(K & Hz & ->)].
    + rewrite K in W. destruct (int_inv _ _ _ W) as (n & -> & Hn).
      destruct t, q; try discriminate. cbn [asked]. split; [exact K|].
      cbn [as_text] in T. apply rmap_ok in T as ([x|] & T & _).
      * apply (proj1 (text_other s)) in T as (n' & U & _). apply unsigned_signed in U.
        rewrite (signed_text_unique _ _ _ (number_signed _ _ S) U). lia.
      * exfalso. revert T. unfold bool_from_text. destruct (from_utf8 s); cbn [rbind]; try discriminate.
        destruct (parse_u 8 _); discriminate.
    + rewrite K in W. inversion W; subst; try discriminate. destruct q; try discriminate. exact K.
  - exfalso. destruct (sent_inv _ _ _ B) as (v & W & V & _). rewrite (extract_is _ _ _ _ _ W) in X. rewrite S in W.
    inversion W; subst; try discriminate. destruct q; discriminate.
  - exfalso. destruct (sent_inv _ _ _ B) as (v & W & V & _). rewrite (extract_is _ _ _ _ _ W) in X. rewrite S in W.
    inversion W; subst; try discriminate. destruct q; discriminate.
  - split; [intros _ []|intros _].
    apply shown_string in S as (SK & ->). destruct (sent_inv _ _ _ B) as (v & W & V & _). symmetry in V.
    rewrite (extract_is _ _ _ _ _ W) in X. destruct (string_inv _ _ _ _ _ W V SK) as (wrap & K & ->).
    destruct (fst k) eqn:FK; cbn [string_kind] in K; try discriminate; injection K as <-; destruct q; try discriminate;
      try (apply SAME; cbn; rewrite FK; cbn; tauto).
    (* DECIMAL in the old format *)
    cbn [as_text as_binary decimal_from_binary] in T, X. unfold text_parsed in T. rewrite T in X. congruence.
  - split; [intros _ []|intros _]. apply SAME.
    destruct (sent_inv _ _ _ B) as (v & W & V & _). rewrite (extract_is _ _ _ _ _ W) in X.
    destruct S as [(K & Hy & ->)|(K & ST & ->)].
    + rewrite K in W. assert (v = BDate y m d) as ->.
      { inversion W; subst; try discriminate; cbn [cell_meaning] in V; injection V as -> -> ->; reflexivity. }
      destruct q; try discriminate. cbn [asked]. split; [exact K|]. apply real_date_valid.
      cbn [as_binary date_from_binary] in X. unfold from_ymd in X. destruct (valid_date y m d); [reflexivity|discriminate].
    + assert (v = BDateTime (mk_dt y m d h mi sec us)) as ->.
      { destruct K as [K|K]; rewrite K in W; inversion W; subst; try discriminate; cbn [cell_meaning dt_year dt_month dt_day dt_hour dt_minute dt_second dt_micro] in V;
          injection V; intros; subst; reflexivity. }
      destruct q; try discriminate. cbn [asked]. split; [exact K|]. apply real_date_valid.
      cbn [as_binary naive_datetime_from_binary] in X. unfold naive_of_datetime, from_ymd in X. cbn [dt_year dt_month dt_day] in X.
      destruct (valid_date y m d); [reflexivity|discriminate].
  - destruct S as (K & ST & ->). pose proof (sent_inv _ _ _ B) as (v & W & V & Z). rewrite (extract_is _ _ _ _ _ W) in X. rewrite K in W.
    assert (exists t, v = BTime t) as (t & ->) by (inversion W; subst; try discriminate; eauto).
    destruct q; try discriminate. cbn [differs]. split.
    + intros E (_ & Df). subst b. cbn [as_text] in T. unfold time_from_text_col in T. rewrite (time_text dec _ ST) in T.
      cbn [t_neg t_days t_hour t_minute t_second t_micro] in T. unfold hours_of in T. cbn [t_days t_hour] in T.
      injection T as <-. cbn [as_binary time_from_binary] in X. injection X as ->.
      cbn [cell_meaning t_neg t_days t_hour t_minute t_second t_micro] in V. unfold vtime in V. injection V as V VU.
      destruct Df as [(-> & H0)|(H1 & H2 & H3)].
      * rewrite H0 in V. cbn in V. discriminate.
      * unfold text_micro in VU. destruct (N.eqb_spec dec 0); [congruence|]. destruct (N.eqb_spec dec 3); [congruence|].
        destruct ST as (Hd & _ & _ & _ & _ & _ & HM & _). cbn [t_micro] in HM.
        assert (10 ^ 1 <= 10 ^ (6 - dec)) by (apply N.pow_le_mono_r; lia). change (10 ^ 1) with 10 in *.
        pose proof (N.div_lt us (10 ^ (6 - dec)) ltac:(lia) ltac:(lia)). lia.
    + intros ND. apply SAME. cbn [asked]. split.
      * intros -> H0. apply ND. auto.
      * destruct (N.eqb_spec us 0); [auto|]. destruct (N.eqb_spec dec 3); [auto|]. destruct (N.eqb_spec dec 6); [auto|].
        exfalso. apply ND. auto.
Qed.

(** ** whole tables *)
Lemma null_text D (R : readers D) q : as_text R q None = Ok None.
Proof. destruct q; reflexivity. Qed.
Lemma null_binary D (R : readers D) q : as_binary R q BNull = Ok None.
Proof. destruct q; reflexivity. Qed.
Lemma get_col_some {C V} (f : C -> res V) row i c : nth_error row i = Some c -> get_col f row i = f c.
Proof. intros H. rewrite get_col_at, H. reflexivity. Qed.
Lemma sent_row ks vs nulls w : sent_cells ks vs nulls w ->
  exists bs, wire_cols (map fst ks) bs nulls w /\
    forall i k v, nth_error ks i = Some k -> nth_error vs i = Some v ->
      exists b, nth_error bs i = Some b /\ (v = VNull /\ b = BNull \/ exists w1, sent k v w1 /\ wire_value (fst k) b w1).
Proof.
  induction 1 as [|k ks vs nulls w H IH|k ks v vs nulls w1 w S H IH].
  - exists []. split; [constructor|]. intros [|i]; discriminate.
  - destruct IH as (bs & W & N). exists (BNull :: bs). split; [constructor; exact W|].
    intros [|i] k' v' Hk Hv; cbn [nth_error] in *; [|exact (N i k' v' Hk Hv)].
    injection Hk as <-. injection Hv as <-. eauto.
  - destruct IH as (bs & W & N). destruct (sent_inv _ _ _ S) as (b & Wb & _). exists (b :: bs). split; [constructor; assumption|].
    intros [|i] k' v' Hk Hv; cbn [nth_error] in *; [|exact (N i k' v' Hk Hv)].
    injection Hk as <-. injection Hv as <-. exists b. split; [reflexivity|]. right. eauto.
Qed.
Definition cell_answers {D} (R : readers D) (defs : list column_def) (vs : list sql_value)
  (cs : list (option bytes)) (bs : list binary_value) : Prop :=
  forall j df v q, nth_error defs j = Some df -> nth_error vs j = Some v -> asked q (cd_decimals df) (column_of df) v ->
    get_col (as_text R q) cs j = meant R q v /\ get_col (as_binary R q) bs j = meant R q v.
Lemma rows_same D (R : readers D) defs table : readers_ok R -> forall tms bms,
  Forall2 (text_row_of defs) table tms -> Forall2 (binary_row_of defs) table bms ->
  exists trows brows, text_rows_wire defs trows tms /\ binary_rows_wire defs brows bms /\
    Forall2 (fun vs p => cell_answers R defs vs (fst p) (snd p)) table (combine trows brows) /\
    length trows = length table /\ length brows = length table.
Proof.
  intros RO. induction table as [|vs table IH]; intros tms bms T B; inversion T; inversion B; subst.
  - exists [], []. repeat split; constructor.
  - match goal with H1 : Forall2 _ table ?l, H2 : Forall2 _ table ?l' |- _ => destruct (IH _ _ H1 H2) as (trows & brows & W1 & W2 & F & L1 & L2) end.
    match goal with H : text_row_of _ _ _ |- _ => destruct H as (cs & -> & Lv & Lc & SH) end.
    match goal with H : binary_row_of _ _ _ |- _ => destruct H as (nulls & bm & w & SC & RB & ->) end.
    destruct (sent_row _ _ _ _ SC) as (bs & WC & NB).
    exists (cs :: trows), (bs :: brows). split; [|split; [|split]].
    + constructor; [|exact W1]. split; [exact Lc|]. split; [|reflexivity].
      apply Forall_forall. intros c Hc. destruct (In_nth_error _ _ Hc) as (i & Hi). destruct c as [s|]; [|exact I].
      assert (i < length defs)%nat by (rewrite <- Lc; apply (proj1 (nth_error_Some cs i)); intros EN; pose proof (eq_trans (eq_sym EN) Hi); discriminate).
      destruct (nth_error defs i) as [df|] eqn:E1; [|apply nth_error_None in E1; lia].
      destruct (nth_error vs i) as [v|] eqn:E2; [|apply nth_error_None in E2; lia].
      exact (proj2 (SH i df v (Some s) E1 E2 Hi)).
    + constructor; [|exact W2]. exists nulls, bm, w. rewrite map_map in WC. auto.
    + cbn [combine]. constructor; [|exact F]. cbn [fst snd]. intros j df v q Hd Hv A.
      assert (j < length defs)%nat by (apply nth_error_Some; congruence).
      destruct (nth_error cs j) as [c|] eqn:Hc; [|apply nth_error_None in Hc; lia].
      pose proof (SH j df v c Hd Hv Hc) as HS.
      destruct (NB j (column_of df) v ltac:(rewrite nth_error_map, Hd; reflexivity) Hv) as (b & Hb & CB).
      rewrite (get_col_some (as_text R q) cs j c Hc), (get_col_some (as_binary R q) bs j b Hb). destruct CB as [(-> & ->)|(w1 & S & Wb)].
      * rewrite null_binary. destruct c; [destruct HS as ([] & _)|]. rewrite null_text. auto.
      * destruct c as [s|].
        -- destruct (same_answer D R q (cd_decimals df) (column_of df) v s w1 [] RO A (proj1 HS) S) as (E1 & E2).
           rewrite (extract_is _ _ _ _ _ Wb) in E2. auto.
        -- subst v. exfalso. exact (null_cell _ _ (proj1 S)).
    + cbn [length]. lia.
Qed.

(** ** parsers that satisfy the contract *)
Definition read_num (k : nat) (s : bytes) : N := match parse_digits (firstn k s) 0 with Some n => n | None => 0 end.
Definition simple_date (s : bytes) : naive_date := mk_nd (read_num 4 s) (read_num 2 (skipn 5 s)) (read_num 2 (skipn 8 s)).
Definition simple_datetime (s : bytes) (nanos : N) : naive_datetime :=
  mk_ndt (simple_date s) (mk_nt (read_num 2 (skipn 11 s)) (read_num 2 (skipn 14 s)) (read_num 2 (skipn 17 s)) nanos).
Definition simple_readers : readers bytes :=
  mk_readers bytes
    (fun s => Ok (simple_date s))
    (fun s => if (length s =? 19)%nat then Ok (simple_datetime s 0) else Err EParseValue)
    (fun s => Ok (simple_datetime s (read_num (length s - 20) (skipn 20 s) * 10 ^ N.of_nat (29 - length s))))
    (fun s => Ok s).
Lemma read_num_digits k n r : n < 10 ^ N.of_nat k -> read_num k (digits k n ++ r) = n.
Proof.
  intros H. unfold read_num. rewrite firstn_app, digits_length, Nat.sub_diag, firstn_O, app_nil_r.
  rewrite firstn_all2 by (rewrite digits_length; lia). rewrite parse_digits_digits by exact H. lia.
Qed.
Lemma skip_digits k n c r m : skipn (S k + m) (digits k n ++ c :: r) = skipn m r.
Proof.
  rewrite skipn_app, digits_length. rewrite skipn_all2 by (rewrite digits_length; lia).
  replace (S k + m - k)%nat with (S m) by lia. reflexivity.
Qed.
Ltac skips := repeat match goal with
  | |- context [skipn ?j (digits ?k ?n ++ ?c :: ?r)] =>
      let m := eval cbv in (j - S k)%nat in change j with (S k + m)%nat; rewrite (skip_digits k n c r m)
  end; cbn [skipn].
Lemma simple_readers_ok : readers_ok simple_readers.
Proof.
  assert (SD : forall y m d r, y < 10000 -> real_date y m d -> simple_date (text_date y m d ++ r) = mk_nd y m d).
  { intros y m d r Hy (Hm & Hd & Hd'). assert (d < 100) by (decompose [and or] Hd'; lia).
    unfold simple_date, text_date. rewrite <- !app_assoc. change (str "-") with [n2b 45]. cbn [app]. skips.
    rewrite !read_num_digits by (cbn; lia). reflexivity. }
  assert (LD : forall y m d, length (text_date y m d) = 10%nat).
  { intros. unfold text_date. rewrite !app_length, !digits_length. reflexivity. }
  split.
  - intros y m d Hy RL. cbn [rd_date simple_readers]. rewrite <- (app_nil_r (text_date y m d)). rewrite SD by assumption. reflexivity.
  - intros dec t (Hdec & Hy & Hm & Hd & Hh & Hmi & Hs & Hu & Hr) RL.
    set (frac := if dec =? 0 then [] else n2b 46 :: digits (N.to_nat dec) (dt_micro t / 10 ^ (6 - dec))).
    assert (E : forall nanos, simple_datetime (datetime_shown dec t) nanos =
      mk_ndt (mk_nd (dt_year t) (dt_month t) (dt_day t)) (mk_nt (dt_hour t) (dt_minute t) (dt_second t) nanos)).
    { intros nanos. unfold simple_datetime, datetime_shown. fold frac. rewrite SD by (try exact RL; lia). f_equal.
      unfold text_date. rewrite <- !app_assoc. change (str "-") with [n2b 45]. cbn [app]. skips.
      rewrite !read_num_digits by (cbn; lia). reflexivity. }
    assert (L : length (datetime_shown dec t) = (19 + length frac)%nat).
    { unfold datetime_shown. fold frac. rewrite !app_length, LD, !digits_length. cbn [length]. lia. }
    cbn [rd_datetime rd_fraction simple_readers]. rewrite !E, L. unfold frac in *. clear frac.
    destruct (N.eqb_spec dec 0) as [->|ND].
    + cbn [length Nat.add Nat.eqb]. unfold naive. change (6 - 0) with 6 in Hr. change (10 ^ 6) with 1000000 in Hr.
      rewrite N.mod_small in Hr by exact Hu. rewrite Hr. reflexivity.
    + cbn [length]. rewrite digits_length. split.
      * exists EParseValue. destruct (Nat.eqb_spec (19 + S (N.to_nat dec)) 19); [lia|reflexivity].
      * unfold naive. do 3 f_equal.
        replace (19 + S (N.to_nat dec) - 20)%nat with (N.to_nat dec) by lia.
        replace (29 - (19 + S (N.to_nat dec)))%nat with (N.to_nat (9 - dec)) by lia. rewrite N2Nat.id.
        assert (SK : skipn 20 (datetime_shown dec t) = digits (N.to_nat dec) (dt_micro t / 10 ^ (6 - dec)) ++ []).
        { unfold datetime_shown. destruct (N.eqb_spec dec 0); [contradiction|].
          unfold text_date. rewrite <- !app_assoc. change (str "-") with [n2b 45]. cbn [app]. skips. rewrite app_nil_r. reflexivity. }
        rewrite SK. rewrite read_num_digits.
        -- replace (9 - dec) with (6 - dec + 3) by lia. rewrite N.pow_add_r. change (10 ^ 3) with 1000.
           rewrite N.mul_assoc. f_equal. pose proof (N.div_mod (dt_micro t) (10 ^ (6 - dec)) ltac:(apply N.pow_nonzero; lia)). lia.
        -- rewrite N2Nat.id. apply N.div_lt_upper_bound; [apply N.pow_nonzero; lia|]. rewrite <- N.pow_add_r.
           replace (6 - dec + dec) with 6 by lia. exact Hu.
Qed.
