(** Proofs about the texts read as a TIME. *)
From Verif Require Import Model.Base Model.BytesParser Model.Utf8 Model.Fmt Model.Time Model.Release
  Spec.Nums Spec.Wire Spec.Temporal Spec.ExtractSpec Spec.TimeText
  Proofs.BaseLemmas Proofs.BytesParserProofs Proofs.TimeProofs Proofs.CmdProofs Proofs.ExtractProofs.
From Coq Require Import Lia ZArith.
Open Scope N_scope.

(** ** white space *)
Lemma white_nil : white [].
Proof. exists []. split; [constructor|reflexivity]. Qed.
Lemma white_cons c ws : In c spaces -> white ws -> white (c ++ ws).
Proof. intros H (cs & F & ->). exists (c :: cs). split; [constructor; assumption|reflexivity]. Qed.
Lemma space_trims c s : In c spaces -> trim_start (c ++ s) = trim_start s.
Proof. intros H. cbn [spaces In] in H. decompose [or] H; subst; try contradiction; reflexivity. Qed.
Lemma space_utf8 c s : In c spaces -> utf8_valid (c ++ s) = utf8_valid s.
Proof. intros H. cbn [spaces In] in H. decompose [or] H; subst; try contradiction; reflexivity. Qed.
Lemma white_trims ws s : white ws -> trim_start (ws ++ s) = trim_start s.
Proof.
  intros (cs & F & ->). induction F as [|c cs H F IH]; [reflexivity|].
  cbn [concat]. rewrite <- app_assoc, space_trims by exact H. exact IH.
Qed.
Lemma white_utf8 ws s : white ws -> utf8_valid (ws ++ s) = utf8_valid s.
Proof.
  intros (cs & F & ->). induction F as [|c cs H F IH]; [reflexivity|].
  cbn [concat]. rewrite <- app_assoc, space_utf8 by exact H. exact IH.
Qed.
Ltac in_spaces := cbn [spaces In]; repeat (first [left; reflexivity|right]).
Lemma trim_white k : forall s, (length s <= k)%nat -> utf8_valid s = true ->
  exists ws, white ws /\ s = ws ++ trim_start s /\ utf8_valid (trim_start s) = true.
Proof.
  induction k as [|k IH]; intros s L V.
  { destruct s; [|cbn in L; lia]. exists []. split; [apply white_nil|]. split; reflexivity. }
  destruct s as [|b s1]; [exists []; split; [apply white_nil|split; reflexivity]|].
  assert (STOP : exists ws, white ws /\ b :: s1 = ws ++ b :: s1 /\ utf8_valid (b :: s1) = true).
  { exists []. split; [apply white_nil|]. split; [reflexivity|exact V]. }
  assert (STEP : forall c r, b :: s1 = c ++ r -> In c spaces ->
            exists ws, white ws /\ b :: s1 = ws ++ trim_start r /\ utf8_valid (trim_start r) = true).
  { intros c r E Hc. assert (c <> []) as Hn by (intros ->; cbn [spaces In] in Hc; decompose [or] Hc; try discriminate; contradiction).
    destruct (IH r) as (ws & W & Er & Vr).
    - apply (f_equal (@length _)) in E. rewrite app_length in E. cbn [length] in E, L. destruct c; [contradiction|]. cbn [length] in E. lia.
    - rewrite E in V. rewrite space_utf8 in V by exact Hc. exact V.
    - exists (c ++ ws). split; [apply white_cons; assumption|]. rewrite E. split; [|exact Vr].
      rewrite <- app_assoc, <- Er. reflexivity. }
  cbn [trim_start].
  destruct ((9 <=? b2n b) && (b2n b <=? 13) || (b2n b =? 32)) eqn:C1.
  { apply (STEP [b] s1); [reflexivity|].
    assert (b2n b = 9 \/ b2n b = 10 \/ b2n b = 11 \/ b2n b = 12 \/ b2n b = 13 \/ b2n b = 32) as K.
    { apply Bool.orb_true_iff in C1 as [C1|C1]; [apply Bool.andb_true_iff in C1 as (A & B); apply N.leb_le in A, B|apply N.eqb_eq in C1]; lia. }
    decompose [or] K; match goal with H : b2n b = _ |- _ => rewrite (b2n_is _ _ H) end; in_spaces. }
  destruct s1 as [|c s2]; [exact STOP|].
  destruct ((b2n b =? 0xc2) && ((b2n c =? 0x85) || (b2n c =? 0xa0))) eqn:C2.
  { apply (STEP [b; c] s2); [reflexivity|].
    apply Bool.andb_true_iff in C2 as (A & B). apply Bool.orb_true_iff in B. rewrite !N.eqb_eq in *.
    rewrite (b2n_is _ _ A). destruct B as [B|B]; rewrite (b2n_is _ _ B); in_spaces. }
  destruct s2 as [|d s3]; [exact STOP|].
  match goal with |- context [if ?x then trim_start s3 else _] => destruct x eqn:C3 end; [|exact STOP].
  apply (STEP [b; c; d] s3); [reflexivity|].
  rewrite !Bool.orb_true_iff, !Bool.andb_true_iff, !Bool.orb_true_iff, !N.eqb_eq, N.leb_le in C3.
  assert (b2n b = 0xe2 -> b2n c = 0x80 -> 0x80 <= b2n d) as D.
  { intros Hb Hc. cbn [utf8_valid] in V. unfold in_range, is_cont, in_range in V. rewrite Hb, Hc in V. cbn [N.ltb N.leb N.eqb N.compare Pos.compare Pos.compare_cont Pos.eqb andb] in V.
    destruct (N.leb_spec 0x80 (b2n d)); [assumption|]. exfalso. revert V. cbn. destruct (N.leb_spec 128 (b2n d)); [lia|]. cbn. discriminate. }
  destruct C3 as [[[((Hb & Hc) & Hd)|((Hb & Hc) & Hd)]|((Hb & Hc) & Hd)]|((Hb & Hc) & Hd)];
    try (rewrite (b2n_is _ _ Hb), (b2n_is _ _ Hc), (b2n_is _ _ Hd); in_spaces).
  specialize (D Hb Hc).
  assert (b2n d = 0x80 \/ b2n d = 0x81 \/ b2n d = 0x82 \/ b2n d = 0x83 \/ b2n d = 0x84 \/ b2n d = 0x85 \/ b2n d = 0x86 \/
    b2n d = 0x87 \/ b2n d = 0x88 \/ b2n d = 0x89 \/ b2n d = 0x8a \/ b2n d = 0xa8 \/ b2n d = 0xa9 \/ b2n d = 0xaf) as K
    by (decompose [or] Hd; lia).
  rewrite (b2n_is _ _ Hb), (b2n_is _ _ Hc).
  decompose [or] K; match goal with H : b2n d = _ |- _ => rewrite (b2n_is _ _ H) end; in_spaces.
Qed.

(** ** splitting *)
Lemma split_on_inv c s : match split_on c s with
  | [] => False
  | p :: ps => s = p ++ flat_map (fun q => c :: q) ps /\ Forall (fun q => ~ In c q) (p :: ps)
  end.
Proof.
  induction s as [|b s IH]; cbn [split_on].
  - split; [reflexivity|]. constructor; [intros []|constructor].
  - destruct (split_on c s) as [|p ps]; [contradiction|]. destruct IH as (E & F).
    destruct (byte_eqb_spec b c) as [->|Hn].
    + split; [cbn [app flat_map]; rewrite <- E; reflexivity|]. constructor; [intros []|exact F].
    + split; [cbn [app]; rewrite <- E; reflexivity|]. inversion_clear F as [|? ? A B]. constructor; [|exact B].
      intros [K|K]; [congruence|contradiction].
Qed.
Lemma split3 c s a b d : split_on c s = [a; b; d] <-> s = a ++ c :: b ++ c :: d /\ ~ In c a /\ ~ In c b /\ ~ In c d.
Proof.
  split.
  - intros H. pose proof (split_on_inv c s) as P. rewrite H in P. cbn [flat_map app] in P. rewrite app_nil_r in P.
    destruct P as (E & F). inversion_clear F as [|? ? A F1]. inversion_clear F1 as [|? ? B F2]. inversion_clear F2 as [|? ? D _]. auto.
  - intros (-> & A & B & D). rewrite split_on_app, split_on_app, split_on_none by assumption. reflexivity.
Qed.
Lemma split2 c s a b : split_on c s = [a; b] <-> s = a ++ c :: b /\ ~ In c a /\ ~ In c b.
Proof.
  split.
  - intros H. pose proof (split_on_inv c s) as P. rewrite H in P. cbn [flat_map app] in P. rewrite app_nil_r in P.
    destruct P as (E & F). inversion_clear F as [|? ? A F1]. inversion_clear F1 as [|? ? B _]. auto.
  - intros (-> & A & B). rewrite split_on_app, split_on_none by assumption. reflexivity.
Qed.
Lemma split1 c s a : split_on c s = [a] <-> s = a /\ ~ In c a.
Proof.
  split.
  - intros H. pose proof (split_on_inv c s) as P. rewrite H in P. cbn [flat_map app] in P. rewrite app_nil_r in P.
    destruct P as (E & F). inversion_clear F as [|? ? A _]. auto.
  - intros (-> & A). apply split_on_none; assumption.
Qed.

(** ** numbers contain neither colons nor points *)
Lemma signed_text_bytes z s b : signed_text z s -> In b s -> b2n b = 43 \/ b2n b = 45 \/ 48 <= b2n b <= 57.
Proof.
  intros (k & n & sign & _ & -> & H) Hb. apply in_app_iff in Hb as [Hb|Hb]; [|right; right; eapply digits_in; exact Hb].
  decompose [or and] H; subst sign; cbn in Hb; try contradiction; destruct Hb as [<-|[]]; [left|right; left]; reflexivity.
Qed.
Lemma unsigned_text_bytes n s b : unsigned_text n s -> In b s -> b2n b = 43 \/ 48 <= b2n b <= 57.
Proof.
  intros (k & sign & _ & -> & H) Hb. apply in_app_iff in Hb as [Hb|Hb]; [|right; eapply digits_in; exact Hb].
  destruct H as [-> | ->]; cbn in Hb; try contradiction; destruct Hb as [<-|[]]. left; reflexivity.
Qed.
Lemma signed_no z s c : signed_text z s -> c = 58 \/ c = 46 -> ~ In (n2b c) s.
Proof. intros H C Hb. apply (signed_text_bytes _ _ _ H) in Hb. destruct C as [-> | ->]; rewrite b2n_n2b_small in Hb; lia. Qed.
Lemma unsigned_no n s c : unsigned_text n s -> c = 58 \/ c = 46 -> ~ In (n2b c) s.
Proof. intros H C Hb. apply (unsigned_text_bytes _ _ _ H) in Hb. destruct C as [-> | ->]; rewrite b2n_n2b_small in Hb; lia. Qed.
Lemma signed_front z s r : signed_text z s -> trim_start (s ++ r) = s ++ r.
Proof.
  intros H. pose proof (fun b => signed_text_bytes z s b H) as B.
  destruct s as [|b s].
  - destruct H as (k & n & sign & _ & E & _). apply (f_equal (@length _)) in E. rewrite app_length, digits_length in E. cbn in E. lia.
  - cbn [app]. apply trim_start_id. specialize (B b (or_introl eq_refl)). lia.
Qed.
(** three characters hold at most 999 *)
Lemma three_small n s : unsigned_text n s -> length s = 3%nat -> n <= 999.
Proof.
  intros (k & sign & L & -> & H) E. rewrite app_length, digits_length in E.
  assert (S k <= 3)%nat as K by lia.
  assert (10 ^ N.of_nat (S k) <= 10 ^ 3) by (apply N.pow_le_mono_r; lia). change (10 ^ 3) with 1000 in *. lia.
Qed.

Lemma thousands n : n <= 999 -> cmul 32 n 1000 = Ok (n * 1000).
Proof.
  intros B. unfold cmul. destruct (N.leb_spec (2 ^ 32) (n * 1000)) as [K|]; [|reflexivity].
  change (2 ^ 32) with 4294967296 in K. lia.
Qed.

(** ** the seconds *)
Definition seconds_of (p2 : bytes) (k : N -> N -> my_time) : res my_time :=
  match split_on (n2b 46) p2 with
  | [s0] => rbind (parse_u 8 s0) (fun second => Ok (k second 0))
  | [s0; s1] =>
      rbind (parse_u 8 s0) (fun second =>
      rbind (if (length s1 =? 3)%nat
             then rbind (parse_u 32 s1) (fun ms => cmul 32 ms 1000)
             else parse_u 32 s1) (fun micro => Ok (k second micro)))
  | _ => Err EParseValue
  end.
Definition seconds_rel (p2 : bytes) (k : N -> N -> my_time) : res my_time :=
  match split_on (n2b 46) p2 with
  | [s0] => rbind (parse_u 8 s0) (fun second => Ok (k second 0))
  | [s0; s1] =>
      rbind (parse_u 8 s0) (fun second =>
      rbind (if (length s1 =? 3)%nat
             then rmap (fun ms => wmul 32 ms 1000) (parse_u 32 s1)
             else parse_u 32 s1) (fun micro => Ok (k second micro)))
  | _ => Err EParseValue
  end.
Lemma seconds_rel_is p2 k : seconds_rel p2 k = seconds_of p2 k.
Proof.
  unfold seconds_rel, seconds_of. destruct (split_on _ p2) as [|s0 [|s1 [|]]]; try reflexivity.
  destruct (parse_u 8 s0) as [second| | |]; try reflexivity. cbn [rbind].
  destruct (Nat.eqb_spec (length s1) 3) as [L|L]; [|reflexivity].
  destruct (parse_u 32 s1) as [ms| | |] eqn:P; try reflexivity. cbn [rbind rmap].
  apply parse_u_spec in P as (U & _). pose proof (three_small _ _ U L) as B.
  rewrite (thousands _ B). unfold wmul. rewrite N.mod_small by (change (2 ^ 32) with 4294967296; lia). reflexivity.
Qed.
Lemma seconds_ok p2 k t : seconds_of p2 k = Ok t <->
  exists s f second micro, p2 = s ++ f /\ unsigned_text second s /\ second < 2 ^ 8 /\ fraction_text micro f /\ t = k second micro.
Proof.
  unfold seconds_of. split.
  - destruct (split_on _ p2) as [|s0 [|s1 [|]]] eqn:S; try discriminate.
    + apply split1 in S as (-> & _). destruct (parse_u 8 s0) as [second| | |] eqn:P; cbn [rbind]; try discriminate. intros [= <-].
      apply parse_u_spec in P as (U & B). exists s0, [], second, 0. rewrite app_nil_r. do 3 (split; [auto|]). split; [left; auto|reflexivity].
    + apply split2 in S as (-> & _). destruct (parse_u 8 s0) as [second| | |] eqn:P; cbn [rbind]; try discriminate.
      apply parse_u_spec in P as (U & B).
      destruct (Nat.eqb_spec (length s1) 3) as [L|L].
      * destruct (parse_u 32 s1) as [ms| | |] eqn:P; cbn [rbind]; try discriminate. apply parse_u_spec in P as (U1 & B1).
        rewrite thousands by (eapply three_small; eauto). cbn [rbind]. intros [= <-].
        exists s0, (n2b 46 :: s1), second, (ms * 1000). do 3 (split; [auto|]). split; [|reflexivity].
        right. exists s1, ms. auto 6.
      * destruct (parse_u 32 s1) as [ms| | |] eqn:P; cbn [rbind]; try discriminate. apply parse_u_spec in P as (U1 & B1). intros [= <-].
        exists s0, (n2b 46 :: s1), second, ms. do 3 (split; [auto|]). split; [|reflexivity].
        right. exists s1, ms. auto 6.
  - intros (s & f & second & micro & -> & U & B & F & ->).
    assert (P : parse_u 8 s = Ok second) by (apply parse_u_spec; auto).
    destruct F as [(-> & ->)|(f1 & n & -> & U1 & B1 & C)].
    + rewrite app_nil_r, split_on_none by (eapply unsigned_no; eauto). rewrite P. reflexivity.
    + rewrite split_on_app, split_on_none by (eapply unsigned_no; eauto). rewrite P. cbn [rbind].
      assert (P1 : parse_u 32 f1 = Ok n) by (apply parse_u_spec; auto). rewrite P1.
      destruct C as [(L & ->)|(L & ->)]; destruct (Nat.eqb_spec (length f1) 3) as [L1|L1]; try contradiction; [|reflexivity].
      cbn [rbind]. rewrite thousands by (eapply three_small; eauto). reflexivity.
Qed.
Lemma seconds_no_panic p2 k p : seconds_of p2 k <> Panic p.
Proof.
  unfold seconds_of. destruct (split_on _ p2) as [|s0 [|s1 [|]]]; try discriminate.
  - unfold parse_u at 1. destruct (parse_nat _); [|discriminate]. destruct (_ <? _); discriminate.
  - destruct (parse_u 8 s0) as [second|e|q|] eqn:P; cbn [rbind]; try discriminate.
    2: { unfold parse_u in P. destruct (parse_nat _); [|discriminate]. destruct (_ <? _); discriminate. }
    destruct (Nat.eqb_spec (length s1) 3) as [L|L].
    + destruct (parse_u 32 s1) as [ms|e|q|] eqn:P1; cbn [rbind]; try discriminate.
      * apply parse_u_spec in P1 as (U1 & _). rewrite thousands by (eapply three_small; eauto). discriminate.
      * unfold parse_u in P1. destruct (parse_nat _); [|discriminate]. destruct (_ <? _); discriminate.
    + destruct (parse_u 32 s1) as [ms|e|q|] eqn:P1; cbn [rbind]; try discriminate.
      unfold parse_u in P1. destruct (parse_nat _); [|discriminate]. destruct (_ <? _); discriminate.
Qed.
Lemma parse_u_no_panic k s p : parse_u k s <> Panic p.
Proof. unfold parse_u. destruct (parse_nat _); [|discriminate]. destruct (_ <? _); discriminate. Qed.
Lemma parse_i_no_panic k s p : 1 <= k -> parse_i k s <> Panic p.
Proof.
  intros Hk H. destruct (parse_i k s) as [z|e|q|] eqn:E; try discriminate.
  rewrite (parse_i_err k s) in E; [discriminate|]. intros n. congruence.
Qed.

(** the value made of the hours, the same in both builds *)
Definition of_hours (hours : Z) (minute second micro : N) : my_time :=
  let h := trunc 32 (Z.abs_N hours) in
  mk_time (hours <? 0)%Z (h / 24) (trunc 8 (h - h / 24 * 24)) minute second micro.
Lemma of_hours_is hours t :
  t = of_hours hours (t_minute t) (t_second t) (t_micro t) <->
  (t_neg t = true <-> (hours < 0)%Z) /\ t_hour t < 24 /\ t_days t * 24 + t_hour t = Z.abs_N hours mod 2 ^ 32.
Proof.
  unfold of_hours, trunc. set (h := Z.abs_N hours mod 2 ^ 32).
  assert (R : h - h / 24 * 24 = h mod 24) by (rewrite (N.div_mod h 24) at 1 by lia; lia).
  assert (L : h mod 24 < 24) by (apply N.mod_lt; lia).
  rewrite R, (N.mod_small (h mod 24)) by (change (2 ^ 8) with 256; lia).
  destruct t as [ng d hr mi se us]; cbn [t_neg t_days t_hour t_minute t_second t_micro]. split.
  - intros [= -> -> ->]. split; [apply Z.ltb_lt|]. split; [exact L|]. rewrite (N.div_mod h 24) at 3 by lia. lia.
  - intros (A & B & C). assert (d = h / 24) as -> by (apply (N.div_unique h 24 d hr); lia).
    assert (hr = h mod 24) as -> by (rewrite (N.div_mod h 24) in C at 2 by lia; lia).
    f_equal. destruct (Z.ltb_spec hours 0); destruct ng; try reflexivity; [apply A; lia|].
    assert (true = true) as K by reflexivity. apply A in K. lia.
Qed.

Section Hours.
  (** whether the absolute value of the hours can be formed *)
  Variable guard : Z -> res unit.
  Definition text_with (bs : bytes) : res my_time :=
    rbind (from_utf8 bs) (fun s =>
    match split_on (n2b 58) (trim_start s) with
    | [p0; p1; p2] =>
        rbind (parse_i 64 p0) (fun hours =>
        rbind (guard hours) (fun _ =>
        rbind (parse_u 8 p1) (fun minute => seconds_of p2 (of_hours hours minute))))
    | _ => Err EParseValue
    end).
  Lemma front ws h m s : white ws -> forall z, signed_text z h -> ~ In (n2b 58) m -> ~ In (n2b 58) s ->
    split_on (n2b 58) (trim_start (ws ++ h ++ n2b 58 :: m ++ n2b 58 :: s)) = [h; m; s].
  Proof.
    intros W z H M S. rewrite white_trims by exact W. rewrite (signed_front z) by exact H.
    apply split3. split; [reflexivity|]. split; [eapply signed_no; eauto|auto].
  Qed.
  Lemma text_with_ok bs t : text_with bs = Ok t <->
    exists hours, time_text_of hours t bs /\ (- 2 ^ 63 <= hours < 2 ^ 63)%Z /\ guard hours = Ok tt.
  Proof.
    unfold text_with. split.
    - rewrite utf8_if. destruct (utf8_valid bs) eqn:V; cbn [rbind]; [|discriminate].
      destruct (trim_white (length bs) bs (le_n _) V) as (ws & W & E & _).
      destruct (split_on _ (trim_start bs)) as [|p0 [|p1 [|p2 [|]]]] eqn:S; try discriminate.
      apply split3 in S as (S & _). destruct (parse_i 64 p0) as [hours| | |] eqn:P0; cbn [rbind]; try discriminate.
      destruct (guard hours) as [[]| | |] eqn:G; cbn [rbind]; try discriminate.
      destruct (parse_u 8 p1) as [minute| | |] eqn:P1; cbn [rbind]; try discriminate. intros H.
      apply parse_i_spec in P0 as (U0 & B0); [|lia]. apply parse_u_spec in P1 as (U1 & B1).
      apply seconds_ok in H as (s & f & second & micro & -> & U2 & B2 & F & ->).
      exists hours. split; [|split; [exact B0|exact G]].
      exists ws, p0, p1, s, f. split; [exact W|]. split; [rewrite <- S; exact E|]. split; [exact U0|].
      cbn [of_hours t_minute t_second t_micro]. do 5 (split; [assumption|]).
      apply (of_hours_is hours (of_hours hours minute second micro)). reflexivity.
    - intros (hours & (ws & h & m & s & f & W & -> & U0 & U1 & B1 & U2 & B2 & F & T) & B0 & G).
      apply of_hours_is in T.
      assert (NC : ~ In (n2b 58) (s ++ f)).
      { rewrite in_app_iff. intros [K|K]; [apply (unsigned_no _ _ 58 U2) in K; auto|].
        destruct F as [(-> & _)|(f1 & n & -> & Uf & _)]; [destruct K|].
        destruct K as [K|K]; [discriminate|]. apply (unsigned_no _ _ 58 Uf) in K; auto. }
      assert (V : utf8_valid (ws ++ h ++ n2b 58 :: m ++ n2b 58 :: s ++ f) = true).
      { rewrite white_utf8 by exact W. apply utf8_ascii. intros b Hb.
        apply in_app_iff in Hb as [Hb|Hb]; [apply (signed_text_bytes _ _ _ U0) in Hb; lia|].
        destruct Hb as [<-|Hb]; [reflexivity|].
        apply in_app_iff in Hb as [Hb|Hb]; [apply (unsigned_text_bytes _ _ _ U1) in Hb; lia|].
        destruct Hb as [<-|Hb]; [reflexivity|].
        apply in_app_iff in Hb as [Hb|Hb]; [apply (unsigned_text_bytes _ _ _ U2) in Hb; lia|].
        destruct F as [(-> & _)|(f1 & n & -> & Uf & _)]; [destruct Hb|].
        destruct Hb as [<-|Hb]; [reflexivity|]. apply (unsigned_text_bytes _ _ _ Uf) in Hb; lia. }
      rewrite utf8_if, V. cbn [rbind].
      rewrite (front ws h m (s ++ f) W hours U0) by (first [exact NC|eapply unsigned_no; eauto]).
      assert (P0 : parse_i 64 h = Ok hours) by (apply parse_i_spec; [lia|]; split; [exact U0|exact B0]).
      assert (P1 : parse_u 8 m = Ok (t_minute t)) by (apply parse_u_spec; auto).
      rewrite P0. cbn [rbind]. rewrite G. cbn [rbind]. rewrite P1. cbn [rbind].
      apply seconds_ok. exists s, f, (t_second t), (t_micro t). do 4 (split; [auto|]). exact T.
  Qed.
  Lemma text_with_panic bs p : text_with bs = Panic p <->
    utf8_valid bs = true /\ exists hours ws h m s, white ws /\ bs = ws ++ h ++ n2b 58 :: m ++ n2b 58 :: s /\
      signed_text hours h /\ (- 2 ^ 63 <= hours < 2 ^ 63)%Z /\ ~ In (n2b 58) m /\ ~ In (n2b 58) s /\ guard hours = Panic p.
  Proof.
    unfold text_with. split.
    - rewrite utf8_if. destruct (utf8_valid bs) eqn:V; cbn [rbind]; [|discriminate].
      destruct (trim_white (length bs) bs (le_n _) V) as (ws & W & E & _).
      destruct (split_on _ (trim_start bs)) as [|p0 [|p1 [|p2 [|]]]] eqn:S; try discriminate.
      apply split3 in S as (S & _ & N1 & N2). destruct (parse_i 64 p0) as [hours|e|q|] eqn:P0; cbn [rbind]; try discriminate.
      2: { exfalso. eapply parse_i_no_panic; [|exact P0]. lia. }
      apply parse_i_spec in P0 as (U0 & B0); [|lia].
      destruct (guard hours) as [[]|e|q|] eqn:G; cbn [rbind]; try discriminate.
      + destruct (parse_u 8 p1) as [minute|e|q|] eqn:P1; cbn [rbind]; try discriminate.
        * intros H. exfalso. eapply seconds_no_panic; exact H.
        * exfalso. eapply parse_u_no_panic; exact P1.
      + intros [= ->]. split; [reflexivity|]. exists hours, ws, p0, p1, p2. split; [exact W|]. split; [rewrite <- S; exact E|]. auto 6.
    - intros (V & hours & ws & h & m & s & W & -> & U0 & B0 & N1 & N2 & G).
      rewrite utf8_if, V. cbn [rbind]. rewrite (front ws h m s W hours U0) by assumption.
      assert (P0 : parse_i 64 h = Ok hours) by (apply parse_i_spec; [lia|]; split; [exact U0|exact B0]).
      rewrite P0. cbn [rbind]. rewrite G. reflexivity.
  Qed.
End Hours.

Definition abs_guard (hours : Z) : res unit := if (hours =? - 2 ^ 63)%Z then Panic PArith else Ok tt.
Lemma time_from_text_is bs : time_from_text bs = text_with abs_guard bs.
Proof.
  unfold time_from_text, text_with. destruct (from_utf8 bs) as [s| | |]; try reflexivity. cbn [rbind].
  destruct (split_on _ (trim_start s)) as [|p0 [|p1 [|p2 [|]]]]; try reflexivity.
  destruct (parse_i 64 p0) as [hours| | |]; try reflexivity. cbn [rbind]. unfold abs_guard.
  destruct (hours =? _)%Z; reflexivity.
Qed.
Lemma time_from_text_rel_is bs : time_from_text_rel bs = text_with (fun _ => Ok tt) bs.
Proof.
  unfold time_from_text_rel, text_with. destruct (from_utf8 bs) as [s| | |]; try reflexivity. cbn [rbind].
  destruct (split_on _ (trim_start s)) as [|p0 [|p1 [|p2 [|]]]]; try reflexivity.
  destruct (parse_i 64 p0) as [hours| | |]; try reflexivity. cbn [rbind].
  destruct (parse_u 8 p1) as [minute| | |]; try reflexivity. cbn [rbind].
  rewrite <- seconds_rel_is. reflexivity.
Qed.

Lemma text_accepts bs t : time_from_text bs = Ok t <->
  exists hours, time_text_of hours t bs /\ (- 2 ^ 63 < hours < 2 ^ 63)%Z.
Proof.
  rewrite time_from_text_is, text_with_ok. unfold abs_guard. split; intros (hours & T & B).
  - destruct B as (B & G). destruct (Z.eqb_spec hours (- 2 ^ 63)); [discriminate|]. exists hours. split; [exact T|lia].
  - exists hours. split; [exact T|]. split; [lia|]. destruct (Z.eqb_spec hours (- 2 ^ 63)); [lia|reflexivity].
Qed.
Lemma text_accepts_rel bs t : time_from_text_rel bs = Ok t <->
  exists hours, time_text_of hours t bs /\ (- 2 ^ 63 <= hours < 2 ^ 63)%Z.
Proof.
  rewrite time_from_text_rel_is, text_with_ok. split; intros (hours & T & B); exists hours; split; try exact T; try apply B.
  split; [exact B|reflexivity].
Qed.
Lemma text_panics bs p : time_from_text bs = Panic p <-> p = PArith /\ utf8_valid bs = true /\ lowest_hours_text bs.
Proof.
  rewrite time_from_text_is, text_with_panic. unfold abs_guard, lowest_hours_text. split.
  - intros (V & hours & ws & h & m & s & W & E & U & B & N1 & N2 & G).
    destruct (Z.eqb_spec hours (- 2 ^ 63)) as [->|]; [|discriminate]. injection G as <-.
    split; [reflexivity|]. split; [exact V|]. exists ws, h, m, s. auto 6.
  - intros (-> & V & ws & h & m & s & W & E & U & N1 & N2). split; [exact V|].
    exists (- 2 ^ 63)%Z, ws, h, m, s. split; [exact W|]. split; [exact E|]. split; [exact U|]. split; [lia|]. auto.
Qed.
Lemma text_rel_no_panic bs p : time_from_text_rel bs <> Panic p.
Proof. rewrite time_from_text_rel_is, text_with_panic. intros (_ & ? & ? & ? & ? & ? & _ & _ & _ & _ & _ & _ & G). discriminate. Qed.

Lemma parse_u_cases k s : (exists n, parse_u k s = Ok n) \/ parse_u k s = Err EParseValue.
Proof. unfold parse_u. destruct (parse_nat _); [|auto]. destruct (_ <? _); eauto. Qed.
Lemma parse_i_cases k s : (exists z, parse_i k s = Ok z) \/ parse_i k s = Err EParseValue.
Proof.
  destruct (parse_i k s) as [z|e|p|] eqn:E; [eauto| | |]; right; rewrite <- E; apply parse_i_err; intros n; congruence.
Qed.
Lemma seconds_cases p2 k : (exists t, seconds_of p2 k = Ok t) \/ seconds_of p2 k = Err EParseValue.
Proof.
  unfold seconds_of. destruct (split_on _ p2) as [|s0 [|s1 [|]]]; auto.
  - destruct (parse_u_cases 8 s0) as [(n & ->)| ->]; cbn [rbind]; eauto.
  - destruct (parse_u_cases 8 s0) as [(n & ->)| ->]; cbn [rbind]; eauto.
    destruct (Nat.eqb_spec (length s1) 3) as [L|L].
    + destruct (parse_u 32 s1) as [ms| | |] eqn:P; destruct (parse_u_cases 32 s1) as [(n1 & E)|E]; try congruence; cbn [rbind].
      * apply parse_u_spec in P as (U1 & _). rewrite thousands by (eapply three_small; eauto). cbn [rbind]. eauto.
      * right. congruence.
    + destruct (parse_u_cases 32 s1) as [(n1 & ->)| ->]; cbn [rbind]; eauto.
Qed.
Lemma text_cases bs : (exists t, time_from_text bs = Ok t) \/ (exists p, time_from_text bs = Panic p) \/
  time_from_text bs = Err (if utf8_valid bs then EParseValue else EUtf8).
Proof.
  rewrite time_from_text_is. unfold text_with. rewrite utf8_if. destruct (utf8_valid bs); cbn [rbind]; [|auto].
  destruct (split_on _ (trim_start bs)) as [|p0 [|p1 [|p2 [|]]]]; auto.
  destruct (parse_i_cases 64 p0) as [(z & ->)| ->]; cbn [rbind]; auto. unfold abs_guard.
  destruct (_ =? _)%Z; cbn [rbind]; eauto.
  destruct (parse_u_cases 8 p1) as [(n & ->)| ->]; cbn [rbind]; auto.
  destruct (seconds_cases p2 (of_hours z n)) as [(t & ->)| ->]; eauto.
Qed.
