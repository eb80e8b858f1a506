(** * Descriptions of columns and values in row images: proofs *)
From Coq Require Import Lia ZArith.
From Verif Require Import Model.Base Model.BytesParser Model.LenEnc Model.Utf8 Model.Time Model.Decimal Model.Bitmap
  Model.Col Model.Row Model.Event Model.EventBody Model.Rows
  Spec.Nums Spec.LenEncSpec Spec.Wire Spec.BitmapSpec Spec.DecimalSpec Spec.Accepts Spec.AcceptsEvents Spec.AcceptsRowEvents
  Proofs.BaseLemmas Proofs.BytesParserProofs Proofs.LenEncProofs Proofs.WireLemmas Proofs.TimeProofs Proofs.DecimalProofs
  Proofs.AcceptsProofs Proofs.AcceptsPackets Proofs.AcceptsRows Proofs.AcceptsEvents Proofs.AcceptsBodies.
Open Scope N_scope.

(** ** Composition *)
Lemma tb_of {A} (p : parser A) E : takes_exactly p E -> takes_before p (fun v w _ => E v w).
Proof. intros P. exact P. Qed.
Lemma tb_iff {A} (p : parser A) (E F : A -> bytes -> bytes -> Prop) :
  (forall v w rest, E v w rest <-> F v w rest) -> takes_before p E -> takes_before p F.
Proof. intros H P bs v rest. rewrite (P bs v rest). split; intros (w & E1 & E2); exists w; (split; [exact E1|apply H; exact E2]). Qed.
Lemma tb_bind {A B} (p : parser A) (f : A -> parser B) E F G :
  takes_before p E -> (forall a w rest, E a w rest -> takes_before (f a) (F a)) ->
  (forall v w rest, G v w rest <-> exists a w1 w2, w = w1 ++ w2 /\ E a w1 (w2 ++ rest) /\ F a v w2 rest) ->
  takes_before (pbind p f) G.
Proof.
  intros P Q H bs v rest. split.
  - intros X. apply pbind_inv in X. destruct X as (a & mid & X & Y). apply P in X. destruct X as (w1 & -> & X). apply (Q _ _ _ X) in Y. destruct Y as (w2 & -> & Y). exists (w1 ++ w2). split; [apply app_assoc|]. apply H. exists a, w1, w2. auto.
  - intros (w & -> & X). apply H in X. destruct X as (a & w1 & w2 & -> & X & Y). rewrite <- app_assoc.
    rewrite (pbind_ok _ _ _ a (w2 ++ rest)); [|apply P; exists w1; auto]. apply (Q _ _ _ X). exists w2. auto.
Qed.
Lemma tb_map {A B} (g : A -> B) (p : parser A) E F :
  takes_before p E -> (forall v w rest, F v w rest <-> exists a, v = g a /\ E a w rest) -> takes_before (pmap g p) F.
Proof.
  intros P H. unfold pmap. apply (tb_bind _ _ E (fun a v w _ => v = g a /\ w = [])); [exact P|intros a w r _; apply tb_of, te_ret; reflexivity|].
  intros v w rest. rewrite H. split.
  - intros (a & -> & X). exists a, w, []. rewrite app_nil_r. auto.
  - intros (a & w1 & w2 & -> & X & -> & ->). exists a. rewrite app_nil_r. auto.
Qed.
Lemma tb_fail {A} (p : parser A) E : (forall bs v rest, p bs <> (Ok v, rest)) -> (forall v w rest, ~ E v w rest) -> takes_before p E.
Proof. intros N H bs v rest. split; [intros X; destruct (N _ _ _ X)|intros (w & _ & X); destruct (H _ _ _ X)]. Qed.
Lemma tb_lift {A B} (x : res A) (f : A -> parser B) E :
  (forall a, x = Ok a -> takes_before (f a) E) -> ((forall a, x <> Ok a) -> forall v w rest, ~ E v w rest) ->
  takes_before (pbind (plift x) f) E.
Proof.
  intros P N. destruct x as [a|e|w|]; [intros bs v rest; exact (P a eq_refl bs v rest)|..];
    (apply tb_fail; [intros bs v rest; discriminate|apply N; discriminate]).
Qed.

(** ** Descriptions of columns *)
Lemma lor_f0 : forall b : byte, N.lor (b2n b) 0xf0 = 0xf0 + b2n b mod 16.
Proof. intros b. destruct b; reflexivity. Qed.
Lemma string_len : forall b : byte, N.shiftl (N.lxor (N.land (N.shiftr (b2n b) 4) 3) 3) 8 = 256 * (3 - b2n b / 16 mod 4).
Proof. intros b. destruct b; reflexivity. Qed.
Ltac meta_const := apply te_ret; intros v w; split; [intros H; inversion H; subst; try discriminate; try (intuition discriminate); auto|intros [-> ->]; constructor].
Ltac meta_one L := apply (te_map _ _ _ _ L); intros v w; split;
  [intros H; inversion H; subst; try discriminate; try (intuition discriminate); (eexists; split; [reflexivity|assumption])|intros (a & -> & H); constructor; solve [auto]].
Ltac meta_two := eapply te_iff; [|args]; intros v w; cbv beta; split;
  [intros H; dex; constructor; assumption|intros H; inversion H; subst; try discriminate; try (intuition discriminate); build].
Lemma accepts_meta ct : takes_exactly (read_column_meta ct) (meta_layout ct).
Proof.
  destruct ct; cbn [read_column_meta];
    try (apply te_fail; [discriminate|intros v w H; inversion H; subst; try discriminate; intuition discriminate]);
    try (meta_const; fail); try (meta_one te_u8; fail); try (meta_one te_u16; fail); try (meta_two; fail).
  eapply te_bind with (F := fun t m w => exists n, byte1 n w /\
    (t mod 16 = 7 /\ m = MEnum n \/ t mod 16 = 14 /\ m = MString (256 * (3 - t / 16 mod 4) + n))); [apply te_u8| |].
  - intros t w0 H0. apply byte1_eq in H0. destruct H0 as (b & _ & ->).
    eapply te_bind with (F := fun n m w => w = [] /\
      (b2n b mod 16 = 7 /\ m = MEnum n \/ b2n b mod 16 = 14 /\ m = MString (256 * (3 - b2n b / 16 mod 4) + n))); [apply te_u8| |].
    + intros n w1 _. rewrite string_len.
      assert (C : b2n b mod 16 = 7 \/ b2n b mod 16 = 14 \/ (b2n b mod 16 <> 7 /\ b2n b mod 16 <> 14)) by lia.
      destruct C as [C|[C|[C1 C2]]].
      * replace (N.lor (b2n b) 0xf0) with 0xf7 by (rewrite lor_f0, C; reflexivity).
        apply te_ret. intros v w. rewrite C. split; [intros [-> [[_ ->]|[X _]]]; [auto|discriminate]|intros [-> ->]; auto].
      * replace (N.lor (b2n b) 0xf0) with 0xfe by (rewrite lor_f0, C; reflexivity).
        apply te_ret. intros v w. rewrite C. split; [intros [-> [[X _]|[_ ->]]]; [discriminate|auto]|intros [-> ->]; auto].
      * apply te_fail; [|tauto]. intros bs v rest. pose proof (lor_f0 b) as X. intros Y.
        destruct (N.lor (b2n b) 0xf0) as [|q]; [discriminate|].
        repeat (destruct q as [q|q|]; try discriminate); lia.
    + intros v w. split; [intros (n & H & X); exists n, w, []; rewrite app_nil_r; auto|].
      intros (n & w1 & w2 & -> & H & -> & X). rewrite app_nil_r. eauto.
  - intros v w. split.
    + intros H. assert (X : exists t n, fields [byte1 t; byte1 n] w /\ (t mod 16 = 7 /\ v = MEnum n \/ t mod 16 = 14 /\ v = MString (256 * (3 - t / 16 mod 4) + n))).
      { inversion H; subst; try discriminate; try (intuition discriminate); [exists t, n; auto|exists t, n; auto]. }
      destruct X as (t & n & X & C). apply fields_cons_inv in X. destruct X as (w1 & w2 & -> & X1 & X2). rewrite fields_one in X2.
      exists t, w1, w2. split; [reflexivity|]. split; [exact X1|]. exists n. auto.
    + intros (t & w1 & w2 & -> & H1 & n & H2 & [[T ->]|[T ->]]); [apply (ml_enum t)|apply ml_string]; try assumption;
        (constructor; [exact H1|apply fields_one; exact H2]).
Qed.
Definition metas_from (n : nat) (codes : list N) (ms : list column_meta) (w : bytes) : Prop :=
  exists cts more, length cts = n /\ length ms = n /\ codes = map column_type_code cts ++ more /\
    fields (map (fun '(ct, m) => meta_layout ct m) (combine cts ms)) w.
Lemma skipn_nth {A} (l : list A) i : skipn i l = match nth_error l i with Some a => a :: skipn (S i) l | None => [] end.
Proof. revert i. induction l as [|a l IH]; intros [|i]; try reflexivity. cbn [skipn nth_error]. rewrite IH. reflexivity. Qed.
Lemma accepts_metas_loop defs n : forall i, takes_exactly (read_column_metas_loop n i defs) (metas_from n (map b2n (skipn i defs))).
Proof.
  induction n as [|n IH]; intros i; cbn [read_column_metas_loop].
  - apply te_ret. intros v w. split.
    + intros (cts & more & L1 & L2 & _ & H). destruct cts; [|discriminate]. destruct v; [|discriminate]. inversion H. auto.
    + intros [-> ->]. exists [], (map b2n (skipn i defs)). repeat split. constructor.
  - apply te_lift.
    2:{ intros N v w (cts & more & L1 & _ & H & _). unfold bget in N. rewrite skipn_nth in H. destruct (nth_error defs i) as [a|]; [destruct (N a eq_refl)|].
      destruct cts; discriminate. }
    intros c E. unfold bget in E. destruct (nth_error defs i) as [c'|] eqn:E'; [|discriminate]. injection E as ->. rewrite skipn_nth, E'. cbn [map].
    apply te_lift.
    2:{ intros N v w (cts & more & L1 & _ & H & _). destruct cts as [|ct cts]; [discriminate|]. injection H as H _. apply code_type in H. destruct (N _ H). }
    intros ct T. apply code_type in T.
    eapply te_bind with (F := fun m ms w => exists l, ms = m :: l /\ metas_from n (map b2n (skipn (S i) defs)) l w); [apply accepts_meta| |].
    + intros m w0 _. apply (te_map (cons m) _ _ _ (IH (S i))). reflexivity.
    + intros v w. split.
      * intros (cts & more & L1 & L2 & H & F). destruct cts as [|ct' cts]; [discriminate|]. destruct v as [|m v]; [discriminate|].
        injection H as H1 H2. rewrite T in H1. injection L1 as L1. injection L2 as L2.
        cbn [combine map] in F. apply fields_cons_inv in F. destruct F as (w1 & w2 & -> & F1 & F2).
        assert (ct' = ct) as ->.
        { assert (X : column_type_of (b2n c) = Ok ct) by (apply code_type; exact T). assert (Y : column_type_of (b2n c) = Ok ct') by (apply code_type; congruence). congruence. }
        exists m, w1, w2. repeat split; try assumption. exists v. split; [reflexivity|]. exists cts, more. auto.
      * intros (m & w1 & w2 & -> & H1 & l & -> & cts & more & L1 & L2 & H & F). exists (ct :: cts), more. cbn [length combine map app]. rewrite L1, L2, H, T.
        repeat split. constructor; assumption.
Qed.
Lemma accepts_metas cnt defs : takes_exactly (read_column_metas cnt defs) (metas_layout cnt defs).
Proof.
  unfold read_column_metas. eapply te_iff; [|apply te_capacity; apply accepts_metas_loop]. intros v w. cbv beta. unfold metas_layout, metas_from. cbn [skipn]. split.
  - intros (C & cts & more & L1 & L2 & H & F). exists cts, more. repeat split; auto; lia.
  - intros (cts & more & L1 & C & L2 & H & F). split; [exact C|]. exists cts, more. repeat split; auto; lia.
Qed.
Lemma accepts_whole_table_map d t : table_map_of d = Ok t <-> whole_table_map_layout t (tmd_payload d).
Proof.
  unfold table_map_of, whole_table_map_layout. split.
  - destruct (fst (read_raw_table_map (tmd_payload d))) as [raw|? |?|] eqn:E; try discriminate. cbn [rbind]. intros H. exists raw.
    split; [exact (proj1 (tm_of _ _ accepts_raw_table_map _ _) E)|].
    unfold table_map_of_raw in H. destruct (from_utf8 (rtm_schema_name raw)) as [s|? |?|] eqn:E1; try discriminate. cbn [rbind] in H.
    destruct (from_utf8 (rtm_table_name raw)) as [s'|? |?|] eqn:E2; try discriminate. cbn [rbind] in H.
    destruct (fst (read_column_metas (rtm_col_cnt raw) (rtm_col_defs raw) (rtm_col_meta_defs raw))) as [ms|? |?|] eqn:E3; try discriminate.
    cbn [rbind] in H. injection H as <-. apply utf8_ok in E1. apply utf8_ok in E2. destruct E1 as [E1 ->], E2 as [E2 ->]. cbn. repeat split; auto.
    exact (proj1 (tm_of _ _ (accepts_metas _ _) _ _) E3).
  - intros (raw & R & (U1 & U2) & (N1 & N2 & N3) & M). apply (proj2 (tm_of _ _ accepts_raw_table_map _ _)) in R. rewrite R. cbn [rbind].
    unfold table_map_of_raw. rewrite (proj2 (utf8_ok _ _) (conj U1 eq_refl)), (proj2 (utf8_ok _ _) (conj U2 eq_refl)). cbn [rbind].
    apply (proj2 (tm_of _ _ (accepts_metas _ _) _ _)) in M. rewrite M. cbn [rbind]. destruct t; cbn in *; subst. reflexivity.
Qed.

(** ** Big endian numbers *)
Lemma te_get_be k : takes_exactly (pmap get_be (take k)) (is_be k).
Proof.
  apply (te_map get_be _ _ _ (te_take k)). intros v w. unfold is_be. split.
  - intros [L <-]. exists w. rewrite get_be_val. auto.
  - intros (a & -> & L & ->). rewrite get_be_val. auto.
Qed.
Lemma te_be16 : takes_exactly read_be_u16 (is_be 2). Proof. apply te_get_be. Qed.
Lemma te_be32 : takes_exactly read_be_u32 (is_be 4). Proof. apply te_get_be. Qed.
Lemma be_val_3 a b c : be_val [a; b; c] = b2n c + N.shiftl (b2n b) 8 + N.shiftl (b2n a) 16.
Proof. unfold be_val. cbn [rev app]. apply le_val_3. Qed.
Lemma te_be24 : takes_exactly read_be_u24 (is_be 3).
Proof.
  apply (te_map _ _ _ _ (te_take 3)). intros v w. unfold is_be. split.
  - intros [L <-]. exists w. destruct (list_len3 w L) as (a & b & c & ->). rewrite be_val_3. auto.
  - intros (s & -> & L & ->). split; [exact L|]. destruct (list_len3 s L) as (a & b & c & ->). apply be_val_3.
Qed.
Lemma be_1 n w : is_be 1 n w <-> byte1 n w.
Proof. unfold is_be, byte1, is_le. split; intros [L E]; (split; [exact L|]); destruct w as [|b [|]]; try discriminate; exact E. Qed.
Lemma te_be8 : takes_exactly read_u8 (is_be 1).
Proof. eapply te_iff; [|apply te_u8]. intros v w. symmetry. apply be_1. Qed.
Lemma be_val_app a b : be_val (a ++ b) = be_val a * 256 ^ N.of_nat (length b) + be_val b.
Proof. unfold be_val. rewrite rev_app_distr, le_val_app, rev_length. lia. Qed.
Lemma te_be40 : takes_exactly read_be_u40 (is_be 5).
Proof.
  assert (Q : takes_exactly (n4 <- read_be_u32 ;; n1 <- read_u8 ;; pret (N.shiftl n4 8 + n1)) (is_be 5)).
  { eapply te_bind with (F := fun n4 n w => exists n1, n = n4 * 256 + n1 /\ is_be 1 n1 w); [apply te_be32| |].
    - intros n4 w0 _. apply (te_map (fun n1 => N.shiftl n4 8 + n1) _ _ _ te_be8). intros v w. rewrite N.shiftl_mul_pow2. reflexivity.
    - intros v w. split.
      + intros [L H]. exists (be_val (firstn 4 w)), (firstn 4 w), (skipn 4 w). split; [symmetry; apply firstn_skipn|].
        split; [split; [rewrite firstn_length; lia|reflexivity]|]. exists (be_val (skipn 4 w)).
        assert (L' : length (skipn 4 w) = 1%nat) by (rewrite skipn_length; lia).
        split; [|split; [exact L'|reflexivity]]. rewrite <- H, <- (firstn_skipn 4 w) at 1. rewrite be_val_app, L'. reflexivity.
      + intros (n4 & w1 & w2 & -> & [L1 H1] & n1 & -> & [L2 H2]). split; [rewrite app_length; lia|]. rewrite be_val_app, L2, H1, H2. reflexivity. }
  intros bs v rest. unfold read_be_u40. destruct (Nat.ltb_spec (length bs) 5) as [L|L]; [|apply Q].
  split; [discriminate|]. intros (w & -> & [X _]). rewrite app_length in L. lia.
Qed.
Lemma be_bound k n w : is_be k n w -> n < 256 ^ N.of_nat k.
Proof. intros [<- <-]. apply be_val_bound. Qed.

(** ** TIME *)
Definition packed_p (k : Z) (n f : N) : Z := ((Z.of_N n - 2 ^ k) * 2 ^ 24 + Z.of_N f)%Z.
Definition unpack_time (m : N) (neg : bool) : my_time :=
  let hms := m / 2 ^ 24 in
  let hours := hms / 2 ^ 12 mod 2 ^ 10 in
  mk_time neg (hours / 24) (hours mod 24) (hms / 2 ^ 6 mod 2 ^ 6) (hms mod 2 ^ 6) (m mod 2 ^ 24).
Definition unpacked_time (hms fr : N) : my_time :=
  let p := packed_p 23 hms fr in unpack_time (Z.abs_N p) (p <? 0)%Z.
Lemma low_unpack packed m neg : packed mod 2 ^ 48 = m ->
  (let hms := N.land (N.shiftr packed 24) 0xffffff in
   let hours := N.shiftr hms 12 mod N.shiftl 1 10 in
   let days := hours / 24 in
   mk_time neg days (trunc 8 (hours - days * 24)) (trunc 8 (N.shiftr hms 6 mod N.shiftl 1 6)) (trunc 8 (hms mod N.shiftl 1 6)) (N.land packed 0xffffff))
  = unpack_time m neg.
Proof.
  intros <-. cbv zeta. unfold unpack_time, trunc. change 0xffffff with (N.ones 24). rewrite !N.land_ones, !N.shiftr_div_pow2.
  change (N.shiftl 1 10) with (2 ^ 10). change (N.shiftl 1 6) with (2 ^ 6).
  assert (E1 : packed mod 2 ^ 48 / 2 ^ 24 = packed / 2 ^ 24 mod 2 ^ 24).
  { change (2 ^ 48) with (2 ^ 24 * 2 ^ 24). rewrite N.mod_mul_r by discriminate. rewrite N.mul_comm, N.div_add by discriminate. rewrite N.div_small by (apply N.mod_lt; discriminate). lia. }
  assert (E2 : (packed mod 2 ^ 48) mod 2 ^ 24 = packed mod 2 ^ 24).
  { change (2 ^ 48) with (2 ^ 24 * 2 ^ 24). rewrite N.mod_mul_r by discriminate. rewrite N.mul_comm, N.mod_add by discriminate. apply N.mod_mod. discriminate. }
  rewrite E1, E2. remember (packed / 2 ^ 24 mod 2 ^ 24) as h. clear Heqh E1 E2.
  f_equal.
  - rewrite N.mul_comm, <- N.mod_eq by discriminate. apply N.mod_small. pose proof (N.mod_lt (h / 2 ^ 12 mod 2 ^ 10) 24 ltac:(discriminate)). change (2 ^ 8) with 256. lia.
  - apply N.mod_small. pose proof (N.mod_lt (h / 2 ^ 6) (2 ^ 6) ltac:(discriminate)). change (2 ^ 8) with 256. change (2 ^ 6) with 64 in *. lia.
  - apply N.mod_small. pose proof (N.mod_lt h (2 ^ 6) ltac:(discriminate)). change (2 ^ 8) with 256. change (2 ^ 6) with 64 in *. lia.
Qed.
Lemma wsub_ge k a b : b <= a -> a < 2 ^ k -> wsub k a b = a - b.
Proof. intros H L. unfold wsub. replace (a + 2 ^ k - b) with (a - b + 1 * 2 ^ k) by lia. rewrite N.mod_add by (apply N.pow_nonzero; discriminate). apply N.mod_small. lia. Qed.
Lemma wsub_lt k a b : a < b -> b <= 2 ^ k -> wsub k a b = a + 2 ^ k - b.
Proof. intros H L. unfold wsub. apply N.mod_small. lia. Qed.
Definition read_fraction (dec : N) : parser N :=
  match dec with
  | 0 => pret 0
  | 1 | 2 => pmap (fun f => f * 10000) read_u8
  | 3 | 4 => pmap (fun f => f * 100) read_be_u16
  | 5 | 6 => read_be_u24
  | _ => pfail EConstraint
  end.
Lemma fraction_cases dec : dec = 0 \/ (dec = 1 \/ dec = 2) \/ (dec = 3 \/ dec = 4) \/ (dec = 5 \/ dec = 6) \/ 7 <= dec.
Proof. lia. Qed.
Lemma fraction_none dec : 7 <= dec -> fraction dec = None.
Proof. intros H. destruct dec as [|q]; [lia|]. repeat (destruct q as [q|q|]; try reflexivity; try lia). Qed.
Lemma read_fraction_none dec : 7 <= dec -> read_fraction dec = pfail EConstraint.
Proof. intros H. destruct dec as [|q]; [lia|]. repeat (destruct q as [q|q|]; try reflexivity; try lia). Qed.
Definition fraction_layout (dec : N) (fr : N) (w : bytes) : Prop := exists width unit f, fraction dec = Some (width, unit) /\ is_be width f w /\ fr = f * unit.
Lemma te_fraction dec : takes_exactly (read_fraction dec) (fraction_layout dec).
Proof.
  destruct (fraction_cases dec) as [->|[[->| ->]|[[->| ->]|[[->| ->]|H]]]]; cbn [read_fraction].
  2,3: apply (te_map _ _ _ _ te_be8); intros v w; unfold fraction_layout; cbn [fraction]; split;
    [intros (? & ? & f & [= <- <-] & H & ->); eauto|intros (f & -> & H); exists 1%nat, 10000, f; auto].
  2,3: apply (te_map _ _ _ _ te_be16); intros v w; unfold fraction_layout; cbn [fraction]; split;
    [intros (? & ? & f & [= <- <-] & H & ->); eauto|intros (f & -> & H); exists 2%nat, 100, f; auto].
  2,3: eapply te_iff; [|apply te_be24]; intros v w; unfold fraction_layout; cbn [fraction]; split;
    [intros H; exists 3%nat, 1, v; rewrite N.mul_1_r; auto|intros (? & ? & f & [= <- <-] & H & ->); rewrite N.mul_1_r; exact H].
  - apply te_ret. intros v w. unfold fraction_layout. cbn [fraction]. split.
    + intros (? & ? & f & [= <- <-] & [L _] & ->). destruct w; [|discriminate]. rewrite N.mul_0_r. auto.
    + intros [-> ->]. exists 0%nat, 0, 0. repeat split.
  - rewrite read_fraction_none by exact H. apply te_fail; [discriminate|]. intros v w (? & ? & f & X & _). rewrite fraction_none in X by exact H. discriminate.
Qed.
Lemma fraction_bound dec fr w : fraction_layout dec fr w -> fr < 2 ^ 24.
Proof.
  intros (width & unit & f & E & H & ->). apply be_bound in H.
  destruct (fraction_cases dec) as [->|[[->| ->]|[[->| ->]|[[->| ->]|X]]]]; [..|rewrite fraction_none in E by exact X; discriminate];
    cbn [fraction] in E; injection E as <- <-; change (2 ^ 24) with 16777216; cbn in H; lia.
Qed.
(** the packed number of TIME, low 48 bits *)
Lemma time_packed hms fr neg packed : hms < 2 ^ 24 -> fr < 2 ^ 24 -> neg = negb (N.land hms 0x800000 =? 0x800000) ->
  packed = N.shiftl (wsub 32 hms 0x800000) 24 + fr \/ packed = wsub 64 (N.shiftl hms 24 + fr) 0x800000000000 ->
  exists q, (if neg then neg64 packed else Ok packed) = Ok q /\ q mod 2 ^ 48 = Z.abs_N (packed_p 23 hms fr) /\ neg = (packed_p 23 hms fr <? 0)%Z.
Proof.
  intros H F En Ep. change (0x800000) with (2 ^ 23) in *. rewrite top_bit in En by exact H. unfold packed_p.
  assert (Sh : N.shiftl hms 24 = hms * 2 ^ 24) by apply N.shiftl_mul_pow2. rewrite N.shiftl_mul_pow2, Sh in Ep. clear Sh.
  change 0x800000000000 with (2 ^ 47) in Ep.
  change (2 ^ 24) with 16777216 in *. change (2 ^ 23) with 8388608 in *. change (2 ^ 23)%Z with 8388608%Z. change (2 ^ 24)%Z with 16777216%Z.
  destruct (N.leb_spec 8388608 hms) as [L|L]; subst neg; cbn [negb].
  - exists packed. split; [reflexivity|].
    assert (Ep' : packed = (hms - 8388608) * 16777216 + fr).
    { destruct Ep as [->| ->]; [rewrite wsub_ge by (change (2 ^ 32) with 4294967296; lia); reflexivity|].
      rewrite wsub_ge; [change (2 ^ 47) with 140737488355328; lia|change (2 ^ 47) with 140737488355328; lia|change (2 ^ 64) with 18446744073709551616; lia]. }
    rewrite Ep'. rewrite N.mod_small by (change (2 ^ 48) with 281474976710656; lia). split; [lia|]. symmetry. apply Z.ltb_ge. lia.
  - assert (Ep' : packed = (hms + 4294967296 - 8388608) * 16777216 + fr \/ packed = 18446744073709551616 - (140737488355328 - (hms * 16777216 + fr))).
    { destruct Ep as [->| ->]; [left; rewrite wsub_lt by (change (2 ^ 32) with 4294967296; lia); reflexivity|right].
      rewrite wsub_lt; [change (2 ^ 47) with 140737488355328; change (2 ^ 64) with 18446744073709551616; lia|change (2 ^ 47) with 140737488355328; lia|change (2 ^ 47) with 140737488355328; change (2 ^ 64) with 18446744073709551616; lia]. }
    clear Ep. rewrite neg64_ok by (change (2 ^ 63) with 9223372036854775808; lia). eexists. split; [reflexivity|].
    change (2 ^ 64) with 18446744073709551616. change (2 ^ 48) with 281474976710656. split; [|symmetry; apply Z.ltb_lt; lia].
    assert (X : Z.abs_N ((Z.of_N hms - 8388608) * 16777216 + Z.of_N fr) = 140737488355328 - (hms * 16777216 + fr)) by lia. rewrite X. clear X.
    rewrite (N.mod_small (18446744073709551616 - packed)) by lia. destruct Ep' as [->| ->].
    + replace (18446744073709551616 - ((hms + 4294967296 - 8388608) * 16777216 + fr)) with (140737488355328 - (hms * 16777216 + fr) + 65280 * 281474976710656) by lia.
      rewrite N.mod_add by discriminate. apply N.mod_small. lia.
    + replace (18446744073709551616 - (18446744073709551616 - (140737488355328 - (hms * 16777216 + fr)))) with (140737488355328 - (hms * 16777216 + fr)) by lia.
      apply N.mod_small. lia.
Qed.
Definition time_rest : N * bool -> parser my_time := fun '(packed, negative) =>
  let hms := N.land (N.shiftr packed 24) 0xffffff in
  let hours := N.shiftr hms 12 mod N.shiftl 1 10 in
  let days := hours / 24 in
  pret (mk_time negative days (trunc 8 (hours - days * 24)) (trunc 8 (N.shiftr hms 6 mod N.shiftl 1 6)) (trunc 8 (hms mod N.shiftl 1 6)) (N.land packed 0xffffff)).
Lemma time_tail hms fr neg packed r : hms < 2 ^ 24 -> fr < 2 ^ 24 -> neg = negb (N.land hms 0x800000 =? 0x800000) ->
  packed = N.shiftl (wsub 32 hms 0x800000) 24 + fr \/ packed = wsub 64 (N.shiftl hms 24 + fr) 0x800000000000 ->
  pbind (packed <- (if neg then plift (neg64 packed) else pret packed) ;; pret (packed, neg)) time_rest r = (Ok (unpacked_time hms fr), r).
Proof.
  intros H F En Ep. destruct (time_packed hms fr neg packed H F En Ep) as (q & E1 & E2 & E3).
  assert (X : (if neg then plift (neg64 packed) else pret packed) r = (Ok q, r)).
  { destruct neg; [unfold plift; rewrite E1; reflexivity|injection E1 as ->; reflexivity]. }
  unfold pbind. rewrite X. unfold pret at 1, time_rest. cbv zeta. unfold pret. pose proof (low_unpack q _ neg E2) as Y. cbv zeta in Y. rewrite Y. unfold unpacked_time. rewrite E3. reflexivity.
Qed.
Lemma bind_cong {A B} (p : parser A) (f g : A -> parser B) bs : (forall a r, p bs = (Ok a, r) -> f a r = g a r) -> pbind p f bs = pbind p g bs.
Proof. intros H. unfold pbind. destruct (p bs) as [[a|e|w|] r]; try reflexivity. apply H. reflexivity. Qed.
Lemma ret_bind {A B} (a : A) (f : A -> parser B) bs : pbind (pret a) f bs = f a bs.
Proof. reflexivity. Qed.
Lemma time_binlog_eq dec bs : time_from_binlog dec bs = (hms <- read_be_u24 ;; fr <- read_fraction dec ;; pret (unpacked_time hms fr)) bs.
Proof.
  change (time_from_binlog dec) with (pbind (packed_from_time_binary dec) time_rest). unfold packed_from_time_binary. rewrite <- bind_assoc.
  apply bind_cong. intros hms r E. assert (H : hms < 2 ^ 24). { apply te_be24 in E. destruct E as (w & _ & E). apply be_bound in E. exact E. }
  cbv zeta. rewrite <- bind_assoc.
  destruct (fraction_cases dec) as [->|[[->| ->]|[[->| ->]|[[->| ->]|X]]]]; cbn [read_fraction]; unfold pmap; rewrite <- ?bind_assoc.
  2,3: apply bind_cong; intros f r' E'; rewrite !ret_bind; apply te_be8 in E'; destruct E' as (w' & _ & E'); apply be_bound in E'; change (256 ^ N.of_nat 1) with 256 in E';
    rewrite (time_tail hms (f * 10000)); try assumption; try reflexivity; [change (2 ^ 24) with 16777216; lia|left; reflexivity].
  2,3: apply bind_cong; intros f r' E'; rewrite !ret_bind; apply te_be16 in E'; destruct E' as (w' & _ & E'); apply be_bound in E'; change (256 ^ N.of_nat 2) with 65536 in E';
    rewrite (time_tail hms (f * 100)); try assumption; try reflexivity; [change (2 ^ 24) with 16777216; lia|left; reflexivity].
  2,3: apply bind_cong; intros f r' E'; rewrite !ret_bind; apply te_be24 in E'; destruct E' as (w' & _ & E'); apply be_bound in E';
    rewrite (time_tail hms f); try assumption; try reflexivity; right; reflexivity.
  - rewrite !ret_bind. rewrite (time_tail hms 0); try assumption; try reflexivity. left. lia.
  - rewrite read_fraction_none by exact X. destruct dec as [|q]; [lia|]. repeat (destruct q as [q|q|]; try reflexivity; try lia).
Qed.
(** a number is cut into these parts in one way *)
Lemma unpack_time_iff m neg t : m < 2 ^ 48 -> (t = unpack_time m neg <-> exists high, t_neg t = neg /\
    m = ((high * 2 ^ 10 + t_days t * 24 + t_hour t) * 2 ^ 12 + t_minute t * 2 ^ 6 + t_second t) * 2 ^ 24 + t_micro t /\
    t_days t * 24 + t_hour t < 2 ^ 10 /\ t_hour t < 24 /\ t_minute t < 2 ^ 6 /\ t_second t < 2 ^ 6 /\ t_micro t < 2 ^ 24).
Proof.
  intros _. unfold unpack_time. cbv zeta.
  change (2 ^ 24) with 16777216. change (2 ^ 12) with 4096. change (2 ^ 10) with 1024. change (2 ^ 6) with 64. destruct t as [ng d h mi s us]; cbn [t_neg t_days t_hour t_minute t_second t_micro]. split.
  - intros [= -> -> -> -> -> ->]. exists (m / 16777216 / 4096 / 1024). repeat split; lia.
  - intros (high & -> & E & H1 & H2 & H3 & H4 & H5).
    assert (A : m / 16777216 = (high * 1024 + d * 24 + h) * 4096 + mi * 64 + s) by lia.
    assert (B : m mod 16777216 = us) by lia. rewrite A, B.
    assert (C : ((high * 1024 + d * 24 + h) * 4096 + mi * 64 + s) / 4096 = high * 1024 + (d * 24 + h)) by lia. rewrite C.
    assert (D : (high * 1024 + (d * 24 + h)) mod 1024 = d * 24 + h) by lia. rewrite D.
    f_equal; lia.
Qed.
Lemma accepts_time dec : takes_exactly (time_from_binlog dec) (time_layout dec).
Proof.
  eapply te_ext; [apply time_binlog_eq|].
  eapply te_bind with (F := fun hms t w => exists fr, t = unpacked_time hms fr /\ fraction_layout dec fr w); [apply te_be24| |].
  - intros hms w0 _. apply (te_map (unpacked_time hms) _ _ _ (te_fraction dec)). reflexivity.
  - intros t w. unfold time_layout, packed_layout. change (2 ^ (8 * Z.of_nat 3 - 1))%Z with (2 ^ 23)%Z. split.
    + intros (p & high & (width & unit & n & f & E & F & ->) & T). apply fields_cons_inv in F. destruct F as (w1 & w2 & -> & F1 & F2). rewrite fields_one in F2.
      exists n, w1, w2. split; [reflexivity|]. split; [exact F1|]. exists (f * unit). split; [|exists width, unit, f; auto].
      unfold unpacked_time. apply unpack_time_iff.
      * apply be_bound in F1. assert (X : fraction_layout dec (f * unit) w2) by (exists width, unit, f; auto). apply fraction_bound in X. unfold packed_p.
        change (2 ^ 23)%Z with 8388608%Z. change (2 ^ 24)%Z with 16777216%Z. change (2 ^ 48) with 281474976710656. change (2 ^ 24) with 16777216 in X. change (256 ^ N.of_nat 3) with 16777216 in F1. lia.
      * exists high. exact T.
    + intros (n & w1 & w2 & -> & F1 & fr & -> & X). pose proof (fraction_bound _ _ _ X) as B. destruct X as (width & unit & f & E & F2 & ->).
      unfold unpacked_time. remember (unpack_time (Z.abs_N (packed_p 23 n (f * unit))) (packed_p 23 n (f * unit) <? 0)%Z) as t eqn:Et.
      apply unpack_time_iff in Et.
      * destruct Et as (high & T). exists (packed_p 23 n (f * unit)), high. split; [|exact T]. exists width, unit, n, f. split; [exact E|]. split; [|reflexivity].
        constructor; [exact F1|apply fields_one; exact F2].
      * apply be_bound in F1. unfold packed_p.
        change (2 ^ 23)%Z with 8388608%Z. change (2 ^ 24)%Z with 16777216%Z. change (2 ^ 48) with 281474976710656. change (2 ^ 24) with 16777216 in B. change (256 ^ N.of_nat 3) with 16777216 in F1. lia.
Qed.

(** ** DATETIME *)
Definition dt_packed (n fr : N) : res N :=
  if (packed_p 39 n fr =? - 2 ^ 63)%Z then Panic PArith else Ok (Z.abs_N (packed_p 39 n fr)).
Definition unpack_dt (m : N) : my_datetime :=
  let ymdhms := N.land (N.shiftr m 24) 0xffffffffff in
  let ymd := N.shiftr ymdhms 17 in
  let ym := N.shiftr ymd 5 in
  let hms := ymdhms mod N.shiftl 1 17 in
  mk_dt (trunc 16 (ym / 13)) (trunc 8 (ym mod 13)) (trunc 8 (ymd mod N.shiftl 1 5)) (trunc 8 (N.shiftr hms 12))
    (trunc 8 (N.shiftr hms 6 mod N.shiftl 1 6)) (trunc 8 (hms mod N.shiftl 1 6)) (N.land m 0xffffff).
Lemma dt_packing n fr neg packed : n < 2 ^ 40 -> fr < 2 ^ 24 -> neg = negb (N.land n 0x8000000000 =? 0x8000000000) ->
  packed = trunc 64 (N.shiftl (wsub 64 n 0x8000000000) 24) + fr ->
  packed < 2 ^ 64 /\ (if neg then neg64 packed else Ok packed) = dt_packed n fr.
Proof.
  intros H F En Ep. change 0x8000000000 with (2 ^ 39) in *. rewrite top_bit in En by exact H. unfold dt_packed, packed_p.
  rewrite N.shiftl_mul_pow2 in Ep. unfold trunc in Ep.
  change (2 ^ 24) with 16777216 in *. change (2 ^ 40) with 1099511627776 in *. change (2 ^ 39)%Z with 549755813888%Z. change (2 ^ 24)%Z with 16777216%Z. change (- 2 ^ 63)%Z with (-9223372036854775808)%Z.
  assert (E39 : 2 ^ 39 = 549755813888) by reflexivity. assert (E64 : 2 ^ 64 = 18446744073709551616) by reflexivity.
  destruct (N.leb_spec (2 ^ 39) n) as [L|L]; subst neg; cbn [negb]; rewrite E39 in L.
  - rewrite wsub_ge in Ep by (rewrite ?E39, ?E64; lia). rewrite E39, E64 in Ep. rewrite N.mod_small in Ep by lia. rewrite E64.
    split; [lia|]. destruct (Z.eqb_spec ((Z.of_N n - 549755813888) * 16777216 + Z.of_N fr) (-9223372036854775808)) as [X|X]; [lia|]. f_equal. lia.
  - rewrite wsub_lt in Ep by (rewrite ?E39, ?E64; lia). rewrite E39, E64 in Ep.
    assert (M : ((n + 18446744073709551616 - 549755813888) * 16777216) mod 18446744073709551616 = 18446744073709551616 - (549755813888 - n) * 16777216).
    { replace ((n + 18446744073709551616 - 549755813888) * 16777216) with (18446744073709551616 - (549755813888 - n) * 16777216 + 16777215 * 18446744073709551616) by lia.
      rewrite N.mod_add by discriminate. apply N.mod_small. lia. }
    rewrite M in Ep. rewrite E64. split; [lia|]. unfold neg64. change (2 ^ 63) with 9223372036854775808. rewrite E64.
    destruct (N.eqb_spec packed 9223372036854775808) as [P|P];
      (destruct (Z.eqb_spec ((Z.of_N n - 549755813888) * 16777216 + Z.of_N fr) (-9223372036854775808)) as [X|X]; [try reflexivity; lia|try lia]).
    f_equal. rewrite N.mod_small by lia. lia.
Qed.
Definition dt_rest (packed : N) : parser my_datetime := pret (unpack_dt packed).
Lemma dt_tail n fr neg packed r : n < 2 ^ 40 -> fr < 2 ^ 24 -> neg = negb (N.land n 0x8000000000 =? 0x8000000000) ->
  packed = trunc 64 (N.shiftl (wsub 64 n 0x8000000000) 24) + fr ->
  pbind (if neg then plift (neg64 packed) else pret packed) dt_rest r = (m <- plift (dt_packed n fr) ;; dt_rest m) r.
Proof.
  intros H F En Ep. destruct (dt_packing n fr neg packed H F En Ep) as [_ X]. rewrite <- X. destruct neg; reflexivity.
Qed.
Lemma cadd_ok {B} k a b (f : N -> parser B) r : a + b < 2 ^ k -> pbind (plift (cadd k a b)) f r = f (a + b) r.
Proof. intros H. unfold cadd. destruct (N.leb_spec (2 ^ k) (a + b)) as [L|L]; [lia|]. reflexivity. Qed.
Lemma dt_binlog_eq dec bs : datetime_from_binlog dec bs = (n <- read_be_u40 ;; fr <- read_fraction dec ;; m <- plift (dt_packed n fr) ;; dt_rest m) bs.
Proof.
  change (datetime_from_binlog dec) with (pbind (packed_from_datetime_binary dec) dt_rest). unfold packed_from_datetime_binary. rewrite <- bind_assoc.
  apply bind_cong. intros n r E. assert (H : n < 2 ^ 40). { apply te_be40 in E. destruct E as (w & _ & E). apply be_bound in E. exact E. }
  cbv zeta. rewrite <- bind_assoc.
  assert (K : forall fr, fr < 2 ^ 24 -> trunc 64 (N.shiftl (wsub 64 n 0x8000000000) 24) + fr < 2 ^ 64).
  { intros fr F. exact (proj1 (dt_packing n fr _ _ H F eq_refl eq_refl)). }
  destruct (fraction_cases dec) as [->|[[->| ->]|[[->| ->]|[[->| ->]|X]]]]; cbn [read_fraction]; unfold pmap; rewrite <- ?bind_assoc.
  2,3: apply bind_cong; intros f r' E'; rewrite !ret_bind; apply te_be8 in E'; destruct E' as (w' & _ & E'); apply be_bound in E'; change (256 ^ N.of_nat 1) with 256 in E';
    rewrite cadd_ok by (apply K; change (2 ^ 24) with 16777216; lia); apply dt_tail; try assumption; try reflexivity; change (2 ^ 24) with 16777216; lia.
  2,3: apply bind_cong; intros f r' E'; rewrite !ret_bind; apply te_be16 in E'; destruct E' as (w' & _ & E'); apply be_bound in E'; change (256 ^ N.of_nat 2) with 65536 in E';
    rewrite cadd_ok by (apply K; change (2 ^ 24) with 16777216; lia); apply dt_tail; try assumption; try reflexivity; change (2 ^ 24) with 16777216; lia.
  2,3: apply bind_cong; intros f r' E'; rewrite ?ret_bind; apply te_be24 in E'; destruct E' as (w' & _ & E'); apply be_bound in E';
    rewrite cadd_ok by (apply K; exact E'); apply dt_tail; try assumption; reflexivity.
  - rewrite !ret_bind. apply dt_tail; try assumption; try reflexivity. lia.
  - rewrite read_fraction_none by exact X. destruct dec as [|q]; [lia|]. repeat (destruct q as [q|q|]; try reflexivity; try lia).
Qed.
Lemma unpack_dt_iff m t : m < 2 ^ 63 -> (t = unpack_dt m <->
    m = (((dt_year t * 13 + dt_month t) * 2 ^ 5 + dt_day t) * 2 ^ 17 + dt_hour t * 2 ^ 12 + dt_minute t * 2 ^ 6 + dt_second t) * 2 ^ 24 + dt_micro t /\
    dt_month t < 13 /\ dt_day t < 2 ^ 5 /\ dt_hour t < 2 ^ 5 /\ dt_minute t < 2 ^ 6 /\ dt_second t < 2 ^ 6 /\ dt_micro t < 2 ^ 24).
Proof.
  intros L. unfold unpack_dt, trunc. cbv zeta. change 0xffffffffff with (N.ones 40). change 0xffffff with (N.ones 24). rewrite !N.land_ones, !N.shiftr_div_pow2.
  change (N.shiftl 1 17) with 131072. change (N.shiftl 1 5) with 32. change (N.shiftl 1 6) with 64.
  change (2 ^ 63) with 9223372036854775808 in L.
  change (2 ^ 24) with 16777216. change (2 ^ 12) with 4096. change (2 ^ 6) with 64. change (2 ^ 5) with 32. change (2 ^ 17) with 131072. change (2 ^ 8) with 256. change (2 ^ 16) with 65536. change (2 ^ 40) with 1099511627776.
  rewrite (N.mod_small (m / 16777216)) by lia.
  remember (m / 16777216) as q eqn:Eq. remember (m mod 16777216) as us' eqn:Eu.
  assert (M : m = q * 16777216 + us' /\ us' < 16777216 /\ q < 549755813888) by lia. clear Eq Eu. destruct M as (M & U & Q).
  remember (q / 131072) as ymd eqn:E1. remember (q mod 131072) as hms eqn:E2.
  assert (M1 : q = ymd * 131072 + hms /\ hms < 131072 /\ ymd < 4194304) by lia. clear E1 E2. destruct M1 as (M1 & Hh & Hy).
  remember (ymd / 32) as ym eqn:E1. remember (ymd mod 32) as dy eqn:E2.
  assert (M2 : ymd = ym * 32 + dy /\ dy < 32 /\ ym < 131072) by lia. clear E1 E2. destruct M2 as (M2 & Hd & Hym).
  destruct t as [y mo d h mi s us]; cbn [dt_year dt_month dt_day dt_hour dt_minute dt_second dt_micro]. split.
  - intros [= -> -> -> -> -> -> ->].
    rewrite (N.mod_small (ym / 13)), (N.mod_small (ym mod 13)), (N.mod_small dy), (N.mod_small (hms / 4096)), (N.mod_small (hms / 64 mod 64)), (N.mod_small (hms mod 64)) by lia.
    repeat split; lia.
  - intros (E & H1 & H2 & H3 & H4 & H5 & H6).
    assert (us = us' /\ q = ((y * 13 + mo) * 32 + d) * 131072 + h * 4096 + mi * 64 + s) as [-> Eq] by lia.
    assert (hms = h * 4096 + mi * 64 + s /\ ymd = (y * 13 + mo) * 32 + d) as [-> Ey] by lia.
    assert (dy = d /\ ym = y * 13 + mo) as [-> Em] by lia.
    assert (ym / 13 = y /\ ym mod 13 = mo) as [-> ->] by lia.
    assert (A : (h * 4096 + mi * 64 + s) / 4096 = h) by lia. assert (B : (h * 4096 + mi * 64 + s) / 64 = h * 64 + mi) by lia.
    assert (C : (h * 4096 + mi * 64 + s) mod 64 = s) by lia. rewrite A, B, C.
    assert (D : (h * 64 + mi) mod 64 = mi) by lia. rewrite D.
    f_equal; symmetry; apply N.mod_small; lia.
Qed.
Lemma accepts_datetime dec : takes_exactly (datetime_from_binlog dec) (datetime_layout dec).
Proof.
  eapply te_ext; [apply dt_binlog_eq|].
  assert (BB : forall n fr w1 w2, is_be 5 n w1 -> fraction_layout dec fr w2 -> packed_p 39 n fr <> (- 2 ^ 63)%Z -> Z.abs_N (packed_p 39 n fr) < 2 ^ 63).
  { intros n fr w1 w2 F1 X N. apply be_bound in F1. apply fraction_bound in X. revert N. unfold packed_p.
    change (- 2 ^ 63)%Z with (-9223372036854775808)%Z. change (2 ^ 39)%Z with 549755813888%Z. change (2 ^ 24)%Z with 16777216%Z. change (2 ^ 63) with 9223372036854775808. change (2 ^ 24) with 16777216 in X. change (256 ^ N.of_nat 5) with 1099511627776 in F1. lia. }
  eapply te_bind with (F := fun n t w => exists fr, fraction_layout dec fr w /\ packed_p 39 n fr <> (- 2 ^ 63)%Z /\ t = unpack_dt (Z.abs_N (packed_p 39 n fr))); [apply te_be40| |].
  - intros n w0 _. eapply te_bind with (F := fun fr t w => w = [] /\ packed_p 39 n fr <> (- 2 ^ 63)%Z /\ t = unpack_dt (Z.abs_N (packed_p 39 n fr))); [apply te_fraction| |].
    + intros fr w1 _. unfold dt_packed. apply te_lift.
      * intros m E. destruct (Z.eqb_spec (packed_p 39 n fr) (- 2 ^ 63)) as [X|X]; [discriminate|]. injection E as <-. apply te_ret. tauto.
      * intros N v w (_ & X & _). destruct (Z.eqb_spec (packed_p 39 n fr) (- 2 ^ 63)); [tauto|]. exact (N _ eq_refl).
    + intros t w. split.
      * intros (fr & X). exists fr, w, []. rewrite app_nil_r. tauto.
      * intros (fr & w1 & w2 & -> & X & -> & Y). rewrite app_nil_r. eauto.
  - intros t w. unfold datetime_layout, packed_layout. change (2 ^ (8 * Z.of_nat 5 - 1))%Z with (2 ^ 39)%Z. split.
    + intros (p & (width & unit & n & f & E & F & ->) & Np & T). apply fields_cons_inv in F. destruct F as (w1 & w2 & -> & F1 & F2). rewrite fields_one in F2.
      assert (X : fraction_layout dec (f * unit) w2) by (exists width, unit, f; auto).
      exists n, w1, w2. split; [reflexivity|]. split; [exact F1|]. exists (f * unit). split; [exact X|]. split; [exact Np|].
      apply unpack_dt_iff; [exact (BB _ _ _ _ F1 X Np)|exact T].
    + intros (n & w1 & w2 & -> & F1 & fr & X & Np & T). pose proof (BB _ _ _ _ F1 X Np) as B. destruct X as (width & unit & f & E & F2 & ->).
      apply unpack_dt_iff in T; [|exact B]. exists (packed_p 39 n (f * unit)). split; [|split; [exact Np|exact T]]. exists width, unit, n, f. split; [exact E|]. split; [|reflexivity].
      constructor; [exact F1|apply fields_one; exact F2].
Qed.

(** ** DECIMAL *)
Lemma lxor_lt a b k : a < 2 ^ k -> b < 2 ^ k -> N.lxor a b < 2 ^ k.
Proof.
  intros A B. rewrite <- (N.mod_small a (2 ^ k) A), <- (N.mod_small b (2 ^ k) B), <- !N.land_ones.
  replace (N.lxor (N.land a (N.ones k)) (N.land b (N.ones k))) with (N.land (N.lxor a b) (N.ones k)).
  - rewrite N.land_ones. apply N.mod_lt. apply N.pow_nonzero. discriminate.
  - apply N.bits_inj. intros i. rewrite !N.land_spec, !N.lxor_spec, !N.land_spec. destruct (N.testbit a i), (N.testbit b i), (N.testbit (N.ones k) i); reflexivity.
Qed.
Lemma lxor_back a b : N.lxor (N.lxor a b) b = a.
Proof. rewrite N.lxor_assoc, N.lxor_nilpotent. apply N.lxor_0_r. Qed.
Lemma pow256 k : 256 ^ N.of_nat k = 2 ^ (8 * N.of_nat k).
Proof. rewrite N.pow_mul_r. reflexivity. Qed.
Lemma is_be_wbe k n w : is_be k n w <-> n < 2 ^ (8 * N.of_nat k) /\ w = wbe k n.
Proof.
  split.
  - intros H. split; [rewrite <- pow256; exact (be_bound _ _ _ H)|]. destruct H as [L E].
    assert (X : rev w = rev (wbe k n)); [|apply (f_equal (@rev byte)) in X; rewrite !rev_involutive in X; exact X].
    apply le_val_inj; [rewrite !rev_length, wbe_length; exact L|]. change (le_val (rev (wbe k n))) with (be_val (wbe k n)). change (le_val (rev w)) with (be_val w).
    rewrite wbe_val; [exact E|]. rewrite <- E, <- L, <- pow256. apply be_val_bound.
  - intros [H ->]. split; [apply wbe_length|apply wbe_val; exact H].
Qed.
Definition mask (k : nat) (neg : bool) : N := if neg then N.ones (8 * N.of_nat k) else 0.
Lemma mask_lt k neg : mask k neg < 2 ^ (8 * N.of_nat k).
Proof. unfold mask. pose proof (N.pow_nonzero 2 (8 * N.of_nat k) ltac:(discriminate)). destruct neg; [rewrite N.ones_equiv; lia|lia]. Qed.
Lemma cpl_mask k neg g : g < 2 ^ (8 * N.of_nat k) -> cpl k neg g = wbe k (N.lxor g (mask k neg)).
Proof.
  intros H. unfold cpl, mask. destruct neg; [|rewrite N.lxor_0_r; reflexivity]. rewrite complement_wbe by exact H. rewrite lxor_ones by exact H. reflexivity.
Qed.
Lemma wbe_low k n h : wbe k (N.lxor n (h * 2 ^ (8 * N.of_nat k))) = wbe k n.
Proof.
  assert (E : N.lxor n (h * 2 ^ (8 * N.of_nat k)) mod 2 ^ (8 * N.of_nat k) = n mod 2 ^ (8 * N.of_nat k)).
  { rewrite <- !N.land_ones. apply N.bits_inj. intros i. rewrite !N.land_spec, N.lxor_spec. destruct (N.ltb_spec i (8 * N.of_nat k)) as [L|L].
    - rewrite N.mul_pow2_bits_low by exact L. rewrite xorb_false_r. reflexivity.
    - rewrite N.ones_spec_high by exact L. rewrite !andb_false_r. reflexivity. }
  unfold wbe. rewrite <- (wle_mod k n), <- E, wle_mod. reflexivity.
Qed.
Lemma flip_wbe k n : n < 2 ^ (8 * N.of_nat (S k)) -> flip_first (wbe (S k) n) = wbe (S k) (N.lxor n (2 ^ (8 * N.of_nat k + 7))).
Proof.
  intros H. rewrite !wbe_cons. cbn [flip_first].
  assert (E : 2 ^ (8 * N.of_nat k + 7) = 0x80 * 2 ^ (8 * N.of_nat k)) by (rewrite N.pow_add_r; change (2 ^ 7) with 128; lia).
  rewrite E, wbe_low. f_equal. rewrite <- E, <- !N.shiftr_div_pow2, N.shiftr_lxor. rewrite !N.shiftr_div_pow2, E, N.div_mul by (apply N.pow_nonzero; discriminate).
  f_equal. rewrite b2n_n2b, N.mod_small; [reflexivity|].
  apply N.div_lt_upper_bound; [apply N.pow_nonzero; discriminate|]. replace (8 * N.of_nat (S k)) with (8 * N.of_nat k + 8) in H by lia. rewrite N.pow_add_r in H. exact H.
Qed.
Lemma te_xor (p : parser N) k c (f : N -> N) : takes_exactly p (is_be k) -> c < 2 ^ (8 * N.of_nat k) ->
  (forall n, n < 2 ^ (8 * N.of_nat k) -> f n = N.lxor n c) ->
  takes_exactly (n <- p ;; pret (f n)) (fun g w => g < 2 ^ (8 * N.of_nat k) /\ w = wbe k (N.lxor g c)).
Proof.
  intros P C F. apply (te_map f _ _ _ P). intros v w. split.
  - intros [V ->]. exists (N.lxor v c). assert (X : N.lxor v c < 2 ^ (8 * N.of_nat k)) by (apply lxor_lt; assumption).
    split; [rewrite F by exact X; symmetry; apply lxor_back|apply is_be_wbe; auto].
  - intros (n & -> & H). apply is_be_wbe in H. destruct H as [H ->]. rewrite F by exact H. split; [apply lxor_lt; assumption|]. rewrite lxor_back. reflexivity.
Qed.
Lemma te_fragment neg : takes_exactly (read_fragment neg) (fun g w => g < 2 ^ 32 /\ w = cpl 4 neg g).
Proof.
  eapply te_iff; [|apply (te_xor _ 4 (mask 4 neg) _ te_be32); [apply mask_lt|]].
  - intros g w. cbv beta. change (2 ^ (8 * N.of_nat 4)) with (2 ^ 32). split; intros [H ->]; (split; [exact H|]); [symmetry|]; apply cpl_mask; exact H.
  - intros n _. destruct neg; [reflexivity|symmetry; apply N.lxor_0_r].
Qed.
Definition first_bit (k : nat) (rev : bool) : N := if rev then 2 ^ (8 * N.of_nat k - 1) else 0.
Lemma first_bit_lt k rev : (0 < k)%nat -> first_bit k rev < 2 ^ (8 * N.of_nat k).
Proof. intros K. unfold first_bit. destruct rev; [apply N.pow_lt_mono_r; lia|]. pose proof (N.pow_nonzero 2 (8 * N.of_nat k) ltac:(discriminate)). lia. Qed.
Definition flip_if (rev : bool) (w : bytes) : bytes := if rev then flip_first w else w.
Lemma flip_cpl k rev neg g : (0 < k)%nat -> g < 2 ^ (8 * N.of_nat k) ->
  flip_if rev (cpl k neg g) = wbe k (N.lxor g (N.lxor (first_bit k rev) (mask k neg))).
Proof.
  intros K H. rewrite cpl_mask by exact H. destruct rev; cbn [flip_if first_bit].
  - destruct k as [|k]; [lia|]. rewrite flip_wbe by (apply lxor_lt; [exact H|apply mask_lt]). f_equal. rewrite N.lxor_assoc. f_equal. rewrite N.lxor_comm. f_equal. f_equal. lia.
  - rewrite N.lxor_0_l. reflexivity.
Qed.
Lemma te_extra k rev neg : (0 < k <= 4)%nat ->
  takes_exactly (read_extra_fragment rev (N.of_nat k) neg) (fun g w => g < 2 ^ (8 * N.of_nat k) /\ w = flip_if rev (cpl k neg g)).
Proof.
  intros K.
  assert (Z : takes_exactly (read_extra_fragment rev (N.of_nat k) neg) (fun g w => g < 2 ^ (8 * N.of_nat k) /\ w = wbe k (N.lxor g (N.lxor (first_bit k rev) (mask k neg))))).
  { assert (B : N.lxor (first_bit k rev) (mask k neg) < 2 ^ (8 * N.of_nat k)) by (apply lxor_lt; [apply first_bit_lt; lia|apply mask_lt]).
    destruct k as [|[|[|[|[|k]]]]]; [lia| | | | |lia];
      [refine (te_xor _ 1 _ (fun n => let n := if rev then N.lxor n 0x80 else n in if neg then N.lxor n 0xff else n) te_be8 B _)
      |refine (te_xor _ 2 _ (fun n => let n := if rev then N.lxor n 0x8000 else n in if neg then N.lxor n 0xffff else n) te_be16 B _)
      |refine (te_xor _ 3 _ (fun n => let n := if rev then N.lxor n 0x800000 else n in N.land (if neg then N.lxor n 0xffffff else n) 0x00ffffff) te_be24 B _)
      |refine (te_xor _ 4 _ (fun n => let n := if rev then N.lxor n 0x80000000 else n in if neg then N.lxor n 0xffffffff else n) te_be32 B _)];
      intros n L; cbv zeta; rewrite <- ?N.lxor_assoc.
    3:{ change 0x00ffffff with (N.ones 24). rewrite N.land_ones. rewrite N.mod_small; [destruct rev, neg; rewrite ?N.lxor_0_r; reflexivity|].
        change (2 ^ (8 * N.of_nat 3)) with (2 ^ 24) in L. destruct rev, neg; repeat apply lxor_lt; try exact L; reflexivity. }
    all: destruct rev, neg; cbn [first_bit mask]; rewrite ?N.lxor_0_r; reflexivity. }
  eapply te_iff; [|exact Z]. intros g w. cbv beta. split; intros [H ->]; (split; [exact H|]); [symmetry|]; apply flip_cpl; try exact H; lia.
Qed.
Lemma f2_length {A B} (R : A -> B -> Prop) l m : Forall2 R l m -> length l = length m.
Proof. induction 1; [reflexivity|]. cbn [length]. congruence. Qed.
Definition cpls (neg : bool) (ws : list nat) (gs : list N) : bytes := if neg then map complement (wbes ws gs) else wbes ws gs.
Lemma cpls_app neg ws1 gs1 ws2 gs2 : length ws1 = length gs1 -> cpls neg (ws1 ++ ws2) (gs1 ++ gs2) = cpls neg ws1 gs1 ++ cpls neg ws2 gs2.
Proof. intros H. unfold cpls. rewrite wbes_app by exact H. destruct neg; [apply map_app|reflexivity]. Qed.
Lemma cpls_one neg k g : cpls neg [k] [g] = cpl k neg g.
Proof. unfold cpls, cpl. cbn [wbes]. rewrite app_nil_r. reflexivity. Qed.
Lemma cpls_4 neg gs : cpls neg (repeat 4%nat (length gs)) gs = flat_map (cpl 4 neg) gs.
Proof. unfold cpls. rewrite wbes_4 by reflexivity. apply cpl_flat. Qed.
Definition fits (k : nat) (g : N) : Prop := g < 256 ^ N.of_nat k.
Lemma fits_4 n gs : Forall2 fits (repeat 4%nat n) gs <-> length gs = n /\ Forall (fun g => g < 2 ^ 32) gs.
Proof.
  revert gs. induction n as [|n IH]; intros gs; cbn [repeat].
  - split; [intros H; inversion H; auto|intros [H _]; destruct gs; [constructor|discriminate H]].
  - split.
    + intros H. inversion H as [|? g ? l Hg Hl]; subst. apply IH in Hl. destruct Hl as [<- X]. split; [reflexivity|constructor; [exact Hg|exact X]].
    + intros [L X]. destruct gs as [|g gs]; [discriminate|]. inversion X; subst. constructor; [assumption|]. apply IH. split; [injection L; auto|assumption].
Qed.
Lemma te_groups neg n : takes_exactly (prepeat n (read_fragment neg))
  (fun gs w => Forall2 fits (repeat 4%nat n) gs /\ w = cpls neg (repeat 4%nat n) gs).
Proof.
  eapply te_iff; [|apply te_repeat; apply te_fragment]. intros gs w. cbv beta. rewrite fits_4.
  assert (X : fields (map (fun g w0 => g < 2 ^ 32 /\ w0 = cpl 4 neg g) gs) w <-> Forall (fun g => g < 2 ^ 32) gs /\ w = flat_map (cpl 4 neg) gs).
  { clear n. revert w. induction gs as [|g gs IH]; intros w; cbn [map flat_map].
    - split; [intros H; apply fields_nil_inv in H; auto|intros [_ ->]; constructor].
    - split.
      + intros H. apply fields_cons_inv in H. destruct H as (w1 & w2 & -> & [G ->] & H). apply IH in H. destruct H as [F ->]. split; [constructor; assumption|reflexivity].
      + intros [F ->]. inversion F; subst. constructor; [split; [assumption|reflexivity]|]. apply IH. split; [assumption|reflexivity]. }
  split.
  - intros [L H]. apply X in H. destruct H as [F ->]. split; [split; assumption|]. rewrite <- L. symmetry. apply cpls_4.
  - intros [[L F] W]. split; [exact L|]. apply X. split; [exact F|]. rewrite W, <- L. apply cpls_4.
Qed.
Definition part_widths (x : N) : list nat := if x =? 0 then [] else [dig_bytes x].
Lemma dig_len x : x < 9 -> 0 < x -> tget DIG_TO_BYTES x = Ok (N.of_nat (dig_bytes x)) /\ (0 < dig_bytes x <= 4)%nat.
Proof. intros H G. assert (C : x = 1 \/ x = 2 \/ x = 3 \/ x = 4 \/ x = 5 \/ x = 6 \/ x = 7 \/ x = 8) by lia. decompose [or] C; subst x; (split; [reflexivity|cbn [dig_bytes]; lia]). Qed.
Lemma dig_some x : x < 9 -> exists l, tget DIG_TO_BYTES x = Ok l.
Proof. intros H. destruct (N.eq_dec x 0) as [->|G]; [eexists; reflexivity|]. eexists. apply dig_len; lia. Qed.
Lemma te_first_group x l neg : x < 9 -> tget DIG_TO_BYTES x = Ok l ->
  takes_exactly (if 0 <? x then f <- read_extra_fragment true l neg ;; pret [f] else pret [])
  (fun gs w => Forall2 fits (part_widths x) gs /\ w = (if x =? 0 then [] else flip_first (cpls neg (part_widths x) gs))).
Proof.
  intros H L. unfold part_widths. destruct (N.ltb_spec 0 x) as [G|G].
  - destruct (dig_len x H G) as [E K]. rewrite E in L. injection L as <-. replace (x =? 0) with false by (symmetry; apply N.eqb_neq; lia).
    apply (te_map (fun f => [f]) _ _ _ (te_extra _ true neg K)). intros gs w. rewrite <- pow256. split.
    + intros [F ->]. inversion F as [|? g ? ? Fg Fn]; subst. inversion Fn; subst. exists g. rewrite cpls_one. repeat split. exact Fg.
    + intros (g & -> & Fg & ->). rewrite cpls_one. repeat split. repeat constructor. exact Fg.
  - assert (x = 0) by lia. subst x. cbn [N.eqb]. apply te_ret. intros gs w. split; [intros [F ->]; inversion F; auto|intros [-> ->]; auto].
Qed.
Lemma pow10_get x : x < 9 -> tget POWERS_10 (9 - x) = Ok (10 ^ (9 - x)).
Proof. intros H. assert (C : x = 0 \/ x = 1 \/ x = 2 \/ x = 3 \/ x = 4 \/ x = 5 \/ x = 6 \/ x = 7 \/ x = 8) by lia. decompose [or] C; subst x; reflexivity. Qed.
Definition scale_last (x : N) (gs : list N) : list N := if x =? 0 then gs else removelast gs ++ [last gs 0 * 10 ^ (9 - x)].
Lemma te_last_group x l neg : x < 9 -> tget DIG_TO_BYTES x = Ok l ->
  takes_exactly (if 0 <? x then f <- read_extra_fragment false l neg ;; p <- plift (tget POWERS_10 (DIG_PER_DEC1 - x)) ;; f <- plift (cmul 32 f p) ;; pret [f] else pret [])
  (fun hs w => exists gs, hs = scale_last x gs /\ Forall (fun g => g < 2 ^ 32) hs /\ Forall2 fits (part_widths x) gs /\ w = cpls neg (part_widths x) gs).
Proof.
  intros H L. unfold part_widths, scale_last. destruct (N.ltb_spec 0 x) as [G|G].
  - destruct (dig_len x H G) as [E K]. rewrite E in L. injection L as <-. replace (x =? 0) with false by (symmetry; apply N.eqb_neq; lia).
    change DIG_PER_DEC1 with 9. rewrite pow10_get by exact H.
    eapply te_bind with (F := fun f hs w => w = [] /\ f * 10 ^ (9 - x) < 2 ^ 32 /\ hs = [f * 10 ^ (9 - x)]); [apply (te_extra _ false neg K)| |].
    + intros f w _. intros bs v rest. unfold pbind, plift, pret, cmul. cbn [fst snd]. destruct (N.leb_spec (2 ^ 32) (f * 10 ^ (9 - x))) as [B|B].
      * split; [discriminate|intros (w0 & _ & _ & X & _); lia].
      * split; [intros Q; injection Q as <- <-; exists []; auto|intros (w0 & -> & -> & _ & ->); reflexivity].
    + intros hs w. rewrite <- pow256. split.
      * intros (gs & -> & B & F & ->). inversion F as [|? g ? ? Fg Fn]; subst. inversion Fn; subst. cbn [removelast last app] in *. inversion B; subst.
        exists g, (cpl (dig_bytes x) neg g), []. rewrite cpls_one, app_nil_r. repeat split; assumption.
      * intros (g & w1 & w2 & -> & [Fg ->] & -> & B & ->). exists [g]. rewrite cpls_one, app_nil_r. cbn [removelast last app]. repeat split; repeat constructor; assumption.
  - assert (x = 0) by lia. subst x. cbn [N.eqb]. apply te_ret. intros gs w. split; [intros (hs & -> & _ & F & ->); inversion F; subst; destruct neg; auto|intros [-> ->]; exists []; split; [reflexivity|split; [apply Forall_nil|split; [apply Forall2_nil|destruct neg; reflexivity]]]].
Qed.
Lemma te_decimal_body intg frac li lf neg : tget DIG_TO_BYTES (intg mod 9) = Ok li -> tget DIG_TO_BYTES (frac mod 9) = Ok lf ->
  takes_exactly
    (a <- (if 0 <? intg mod 9 then f <- read_extra_fragment true li neg ;; pret [f] else pret []) ;;
     b <- prepeat (N.to_nat (intg / 9)) (read_fragment neg) ;;
     c <- prepeat (N.to_nat (frac / 9)) (read_fragment neg) ;;
     d <- (if 0 <? frac mod 9 then f <- read_extra_fragment false lf neg ;; p <- plift (tget POWERS_10 (DIG_PER_DEC1 - frac mod 9)) ;; f <- plift (cmul 32 f p) ;; pret [f] else pret []) ;;
     pret (mk_dec intg frac neg (a ++ b ++ c ++ d)))
    (fun d w => exists gs, d = mk_dec intg frac neg (scaled frac gs) /\
      let widths := int_widths intg ++ frac_widths frac in
      Forall2 fits widths gs /\ Forall (fun g => g < 2 ^ 32) (scaled frac gs) /\
      w = if intg mod 9 =? 0 then cpls neg widths gs else flip_first (cpls neg widths gs)).
Proof.
  intros Li Lf.
  assert (I9 : intg mod 9 < 9) by (apply N.mod_lt; discriminate). assert (F9 : frac mod 9 < 9) by (apply N.mod_lt; discriminate).
  pose (LG n gs w := Forall2 fits (repeat 4%nat n) gs /\ w = cpls neg (repeat 4%nat n) gs).
  pose (LL hs w := exists gs, hs = scale_last (frac mod 9) gs /\ Forall (fun g => g < 2 ^ 32) hs /\ Forall2 fits (part_widths (frac mod 9)) gs /\ w = cpls neg (part_widths (frac mod 9)) gs).
  eapply te_bind with (F := fun a d w => exists b c dd wb wc wd, w = wb ++ wc ++ wd /\ d = mk_dec intg frac neg (a ++ b ++ c ++ dd) /\ LG (N.to_nat (intg / 9)) b wb /\ LG (N.to_nat (frac / 9)) c wc /\ LL dd wd);
      [exact (te_first_group _ _ neg I9 Li)| |].
  { intros a w0 _.
      eapply te_bind with (F := fun b d w => exists c dd wc wd, w = wc ++ wd /\ d = mk_dec intg frac neg (a ++ b ++ c ++ dd) /\ LG (N.to_nat (frac / 9)) c wc /\ LL dd wd); [exact (te_groups neg _)| |].
      - intros b w1 _. eapply te_bind with (F := fun c d w => exists dd, d = mk_dec intg frac neg (a ++ b ++ c ++ dd) /\ LL dd w); [exact (te_groups neg _)| |].
        + intros c w2 _. apply (te_map (fun dd => mk_dec intg frac neg (a ++ b ++ c ++ dd)) _ _ _ (te_last_group _ _ neg F9 Lf)). intros; reflexivity.
        + intros v w. split.
          * intros (c & dd & wc & wd & -> & -> & C & D). exists c, wc, wd. split; [reflexivity|]. split; [exact C|]. exists dd. split; [reflexivity|exact D].
          * intros (c & wc & wd & -> & C & dd & -> & D). exists c, dd, wc, wd. split; [reflexivity|]. split; [reflexivity|]. split; [exact C|exact D].
      - intros v w. split.
        + intros (b & c & dd & wb & wc & wd & -> & -> & B & C & D). exists b, wb, (wc ++ wd). split; [reflexivity|]. split; [exact B|]. exists c, dd, wc, wd. repeat split; [exact (proj1 C)|exact (proj2 C)|exact D].
        + intros (b & wb & w2 & -> & B & c & dd & wc & wd & -> & -> & C & D). exists b, c, dd, wb, wc, wd. split; [reflexivity|]. split; [reflexivity|]. split; [exact B|]. split; [exact C|exact D]. }
  intros d w. cbv beta zeta.
  assert (WI : int_widths intg = part_widths (intg mod 9) ++ repeat 4%nat (N.to_nat (intg / 9))) by reflexivity.
  assert (WF : frac_widths frac = repeat 4%nat (N.to_nat (frac / 9)) ++ part_widths (frac mod 9)) by reflexivity.
  assert (SC : forall a b c dd, Forall2 fits (part_widths (frac mod 9)) dd -> scaled frac (a ++ b ++ c ++ dd) = a ++ b ++ c ++ scale_last (frac mod 9) dd).
  { intros a b c dd F. unfold scaled, scale_last. unfold part_widths in F. destruct (frac mod 9 =? 0); [reflexivity|].
    inversion F as [|? g ? ? Fg Fn]; subst. inversion Fn; subst. rewrite !app_assoc. rewrite removelast_last, last_last. cbn [removelast last]. rewrite app_nil_r. reflexivity. }
  assert (CP : forall a b c dd, Forall2 fits (part_widths (intg mod 9)) a -> Forall2 fits (repeat 4%nat (N.to_nat (intg / 9))) b -> Forall2 fits (repeat 4%nat (N.to_nat (frac / 9))) c ->
    cpls neg (int_widths intg ++ frac_widths frac) (a ++ b ++ c ++ dd) = cpls neg (part_widths (intg mod 9)) a ++ cpls neg (repeat 4%nat (N.to_nat (intg / 9))) b ++ cpls neg (repeat 4%nat (N.to_nat (frac / 9))) c ++ cpls neg (part_widths (frac mod 9)) dd).
  { intros a b c dd A B C. rewrite WI, WF, <- !app_assoc. rewrite !cpls_app; [reflexivity| | |]; eapply f2_length; eassumption. }
  assert (FL : forall a y, Forall2 fits (part_widths (intg mod 9)) a ->
    (if intg mod 9 =? 0 then cpls neg (part_widths (intg mod 9)) a ++ y else flip_first (cpls neg (part_widths (intg mod 9)) a ++ y)) =
    (if intg mod 9 =? 0 then [] else flip_first (cpls neg (part_widths (intg mod 9)) a)) ++ y).
  { intros a y A. unfold part_widths in *. destruct (N.eqb_spec (intg mod 9) 0) as [Z|Z].
    - inversion A; subst. unfold cpls. destruct neg; reflexivity.
    - apply flip_first_app. intros Q. apply (f_equal (@length byte)) in Q. revert Q. unfold cpls. destruct (dig_len (intg mod 9) I9 ltac:(lia)) as [_ K].
      inversion A as [|? g ? ? Fg Fn]; subst. inversion Fn; subst. cbn [wbes]. rewrite app_nil_r. destruct neg; rewrite ?map_length, wbe_length; cbn [length]; lia. }
  split.
  - intros (gs & -> & F & B & W). rewrite WI, WF, <- !app_assoc in F.
    apply Forall2_app_inv_l in F. destruct F as (a & gs1 & A & F & ->). apply Forall2_app_inv_l in F. destruct F as (b & gs2 & Bf & F & ->).
    apply Forall2_app_inv_l in F. destruct F as (c & dd & C & D & ->). rewrite SC in * by exact D. rewrite CP in W by assumption. rewrite FL in W by exact A. subst w.
    eexists a, _, _. split; [reflexivity|]. split; [split; [exact A|reflexivity]|]. exists b, c, (scale_last (frac mod 9) dd). do 3 eexists. split; [reflexivity|]. split; [reflexivity|].
    split; [split; [exact Bf|reflexivity]|]. split; [split; [exact C|reflexivity]|]. exists dd. split; [reflexivity|].
    split; [|split; [exact D|reflexivity]]. apply Forall_app in B. destruct B as [_ B]. apply Forall_app in B. destruct B as [_ B]. apply Forall_app in B. apply B.
  - intros (a & wa & w1 & -> & [A ->] & b & c & hs & wb & wc & wd & -> & -> & [Bf ->] & [C ->] & dd & -> & B & D & ->).
    exists (a ++ b ++ c ++ dd). rewrite SC by exact D. rewrite CP by assumption. rewrite FL by exact A. split; [reflexivity|].
    split; [rewrite WI, WF, <- !app_assoc; repeat (apply Forall2_app; [assumption|]); assumption|]. split; [|reflexivity].
    apply Forall_app. split.
    { unfold part_widths in A. destruct (N.eqb_spec (intg mod 9) 0) as [Z|Z]; [inversion A; constructor|]. destruct (dig_len (intg mod 9) I9 ltac:(lia)) as [_ K].
      inversion A as [|? g ? ? Fg Fn]; subst. inversion Fn; subst. constructor; [|constructor]. eapply N.lt_le_trans; [exact Fg|]. change (2 ^ 32) with (256 ^ 4). apply N.pow_le_mono_r; lia. }
    apply Forall_app. split; [apply (proj1 (fits_4 _ _) Bf)|]. apply Forall_app. split; [apply (proj1 (fits_4 _ _) C)|exact B].
Qed.
Lemma sign_bit b : negb (N.land (b2n b) 0x80 =? 0x80) = (b2n b <? 128).
Proof. destruct b; reflexivity. Qed.
Theorem accepts_decimal intg frac : takes_before (read_decimal intg frac) (decimal_layout intg frac).
Proof.
  intros bs d rest. unfold read_decimal. cbv zeta. change DIG_PER_DEC1 with 9.
  replace (intg - intg / 9 * 9) with (intg mod 9) by lia. replace (frac - frac / 9 * 9) with (frac mod 9) by lia.
  assert (I9 : intg mod 9 < 9) by (apply N.mod_lt; discriminate). assert (F9 : frac mod 9 < 9) by (apply N.mod_lt; discriminate).
  destruct (dig_some _ I9) as [li Li]. destruct (dig_some _ F9) as [lf Lf].
  rewrite Li, Lf. unfold pbind at 1 2. unfold plift at 1 2. cbn [fst snd].
  destruct bs as [|b more].
  - split.
    + intros H. injection H as <- <-. exists []. split; [reflexivity|]. left. auto.
    + intros (w & E & [[_ ->]|(b & more & gs & E2 & _)]); [|congruence]. symmetry in E. apply app_eq_nil in E. destruct E as [-> ->]. reflexivity.
  - rewrite sign_bit. pose proof (te_decimal_body intg frac li lf (b2n b <? 128) Li Lf (b :: more) d rest) as T. change DIG_PER_DEC1 with 9 in T. rewrite T. cbv beta zeta. split.
    + intros (w & E & gs & D & F & B & W). exists w. split; [exact E|]. right. exists b, more, gs. split; [symmetry; exact E|]. split; [exact D|]. split; [exact F|]. split; [exact B|]. exact W.
    + intros (w & E & [[E2 _]|(b' & more' & gs & E2 & D & F & B & W)]); [congruence|]. rewrite <- E in E2. injection E2 as <- <-. exists w. split; [exact E|]. exists gs. split; [exact D|]. split; [exact F|]. split; [exact B|]. exact W.
Qed.
