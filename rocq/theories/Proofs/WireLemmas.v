(** * Stepping lemmas: model readers on spec encodings, spec decoders on model writings *)
From Verif Require Import Model.Base Model.BytesParser Model.LenEnc Model.Utf8 Spec.Nums Spec.Codec
  Spec.LenEncSpec Spec.Wire Proofs.BaseLemmas Proofs.BytesParserProofs Proofs.CodecProofs Proofs.LenEncProofs.
Open Scope N_scope.

(** ** encodings *)
Lemma wle_to_le k n : wle k n = to_le_bytes k n.
Proof.
  revert n; induction k; intros n; cbn [wle to_le_bytes]; [reflexivity|].
  rewrite IHk, N.shiftr_div_pow2. change (2 ^ 8) with 256. f_equal.
  apply b2n_inj. rewrite !b2n_n2b. apply N.mod_mod. discriminate.
Qed.
Lemma wle_length k n : length (wle k n) = k.
Proof. rewrite wle_to_le. apply to_le_bytes_length. Qed.
Lemma wbe_length k n : length (wbe k n) = k.
Proof. unfold wbe. rewrite rev_length. apply wle_length. Qed.
Lemma wle_val k n : n < 2 ^ (8 * N.of_nat k) -> le_val (wle k n) = n.
Proof. intros H. rewrite wle_to_le. apply to_le_bytes_mod. exact H. Qed.
Lemma wbe_val k n : n < 2 ^ (8 * N.of_nat k) -> be_val (wbe k n) = n.
Proof. intros H. unfold be_val, wbe. rewrite rev_involutive. apply wle_val. exact H. Qed.

(** ** readers on encodings *)
Section R.
  Variable rest : bytes.
  Lemma rd_u8b b : read_u8 (b :: rest) = (Ok (b2n b), rest). Proof. reflexivity. Qed.
  Lemma rd_u8n n : n < 2 ^ 8 -> read_u8 (n2b n :: rest) = (Ok n, rest).
  Proof. intros H. rewrite rd_u8b, b2n_n2b_small by exact H. reflexivity. Qed.
  Lemma rd_u8 n : n < 2 ^ 8 -> read_u8 (wle 1 n ++ rest) = (Ok n, rest).
  Proof. intros H. rewrite read_u8_spec, wle_val; auto using wle_length. Qed.
  Lemma rd_u16 n : n < 2 ^ 16 -> read_le_u16 (wle 2 n ++ rest) = (Ok n, rest).
  Proof. intros H. rewrite read_le_u16_spec, wle_val; auto using wle_length. Qed.
  Lemma rd_u24 n : n < 2 ^ 24 -> read_le_u24 (wle 3 n ++ rest) = (Ok n, rest).
  Proof. intros H. rewrite read_le_u24_spec, wle_val; auto using wle_length. Qed.
  Lemma rd_u32 n : n < 2 ^ 32 -> read_le_u32 (wle 4 n ++ rest) = (Ok n, rest).
  Proof. intros H. rewrite read_le_u32_spec, wle_val; auto using wle_length. Qed.
  Lemma rd_u48 n : n < 2 ^ 48 -> read_le_u48 (wle 6 n ++ rest) = (Ok n, rest).
  Proof. intros H. rewrite read_le_u48_spec, wle_val; auto using wle_length. Qed.
  Lemma rd_u64 n : n < 2 ^ 64 -> read_le_u64 (wle 8 n ++ rest) = (Ok n, rest).
  Proof. intros H. rewrite read_le_u64_spec, wle_val; auto using wle_length. Qed.
  Lemma rd_u128 n : n < 2 ^ 128 -> read_le_u128 (wle 16 n ++ rest) = (Ok n, rest).
  Proof. intros H. rewrite read_le_u128_spec, wle_val; auto using wle_length. Qed.
  Lemma rd_f32 n : n < 2 ^ 32 -> read_le_f32 (wle 4 n ++ rest) = (Ok n, rest).
  Proof. intros H. rewrite read_le_f32_spec, wle_val; auto using wle_length. Qed.
  Lemma rd_f64 n : n < 2 ^ 64 -> read_le_f64 (wle 8 n ++ rest) = (Ok n, rest).
  Proof. intros H. rewrite read_le_f64_spec, wle_val; auto using wle_length. Qed.
  Lemma rd_be16 n : n < 2 ^ 16 -> read_be_u16 (wbe 2 n ++ rest) = (Ok n, rest).
  Proof. intros H. rewrite read_be_u16_spec, wbe_val; auto using wbe_length. Qed.
  Lemma rd_be24 n : n < 2 ^ 24 -> read_be_u24 (wbe 3 n ++ rest) = (Ok n, rest).
  Proof. intros H. rewrite read_be_u24_spec, wbe_val; auto using wbe_length. Qed.
  Lemma rd_be32 n : n < 2 ^ 32 -> read_be_u32 (wbe 4 n ++ rest) = (Ok n, rest).
  Proof. intros H. rewrite read_be_u32_spec, wbe_val; auto using wbe_length. Qed.
  Lemma rd_be40 n : n < 2 ^ 40 -> read_be_u40 (wbe 5 n ++ rest) = (Ok n, rest).
  Proof. intros H. rewrite read_be_u40_spec, wbe_val; auto using wbe_length. Qed.
  Lemma rd_cstr s : no_nul s -> read_until x00 false (wcstr s ++ rest) = (Ok s, rest).
  Proof. intros H. unfold wcstr. rewrite <- app_assoc. apply read_until_excl. exact H. Qed.
  Lemma rd_cstr' s : no_nul s -> read_until x00 false (s ++ x00 :: rest) = (Ok s, rest).
  Proof. intros H. apply read_until_excl. exact H. Qed.
  Lemma rd_len s n : n = blen s -> read_len n (s ++ rest) = (Ok s, rest).
  Proof. intros ->. apply read_len_app. reflexivity. Qed.
End R.

Lemma no_app {A} (p : parser A) bs a : (p (bs ++ []) = (Ok a, [])) -> p bs = (Ok a, []).
Proof. rewrite app_nil_r. auto. Qed.

Lemma wlenenc_spec n : n < 2 ^ 64 -> lenenc n (wlenenc n).
Proof.
  intros H. unfold wlenenc.
  assert (T : forall k m, m < 2 ^ (8 * N.of_nat k) -> is_le k m (wle k m)).
  { intros k m Hm. split; [apply wle_length|apply wle_val; exact Hm]. }
  destruct (N.ltb_spec n 251).
  { constructor; [assumption|]. apply b2n_n2b_small. lia. }
  destruct (N.ltb_spec n (2 ^ 16)); [constructor; auto|].
  destruct (N.ltb_spec n (2 ^ 24)); [constructor; auto|].
  constructor; auto.
Qed.

Lemma wlstr_spec s : blen s < 2 ^ 64 -> lenenc_str s (wlstr s).
Proof. intros H. exists (wlenenc (blen s)). split; [apply wlenenc_spec; exact H|reflexivity]. Qed.

Lemma rd_lenstr s rest : blen s < 2 ^ 64 -> read_len_enc_str (wlstr s ++ rest) = (Ok (LesBytes s), rest).
Proof. intros H. apply read_les_lenenc, wlstr_spec, H. Qed.

Lemma lei_write_wlenenc n : n < 2 ^ 64 -> n <> 251 -> lei_write (lei_from n) = wlenenc n.
Proof.
  intros H Hn. unfold lei_from, wlenenc.
  destruct (N.ltb_spec n 251).
  { destruct (N.leb_spec n 0xfb); [reflexivity|lia]. }
  destruct (N.leb_spec n 0xfb); [lia|].
  destruct (N.ltb_spec n (2 ^ 16)).
  { destruct (N.leb_spec n 0xffff); [|lia]. cbn [lei_write]. rewrite wle_to_le. reflexivity. }
  destruct (N.leb_spec n 0xffff); [lia|].
  destruct (N.ltb_spec n (2 ^ 24)).
  { destruct (N.leb_spec n 0xffffff); [|lia]. cbn [lei_write]. rewrite wle_to_le, firstn_to_le_bytes by lia. reflexivity. }
  destruct (N.leb_spec n 0xffffff); [lia|]. cbn [lei_write]. rewrite wle_to_le. reflexivity.
Qed.

(** ** decoders *)
Lemma dbind_some {A B} (d : dec A) (f : A -> dec B) bs a rest : d bs = Some (a, rest) -> dbind d f bs = f a rest.
Proof. unfold dbind. intros ->. reflexivity. Qed.
Lemma d_bytes s rest k : k = length s -> dbytes k (s ++ rest) = Some (s, rest).
Proof. intros ->. induction s as [|b s IH]; [destruct rest; reflexivity|]. cbn [length app dbytes]. rewrite IH. reflexivity. Qed.
Lemma d_le k n rest : n < 2 ^ (8 * N.of_nat k) -> dle k (wle k n ++ rest) = Some (n, rest).
Proof.
  rewrite <- pow256. revert n; induction k; intros n H.
  - change (256 ^ N.of_nat 0) with 1 in H. replace n with 0 by lia. destruct rest; reflexivity.
  - cbn [wle app dle]. rewrite IHk.
    + rewrite b2n_n2b, N.mod_mod by discriminate. do 2 f_equal. lia.
    + rewrite Nat2N.inj_succ, N.pow_succ_r' in H. lia.
Qed.
Lemma d_le1 n rest : n < 256 -> dle 1 (n2b n :: rest) = Some (n, rest).
Proof. intros H. cbn [dle]. rewrite b2n_n2b_small by exact H. destruct rest; do 2 f_equal; lia. Qed.
Lemma d_cstr s rest : no_nul s -> dcstr (s ++ x00 :: rest) = Some (s, rest).
Proof.
  unfold no_nul. induction s as [|b s IH]; intros H; [reflexivity|]. cbn [app dcstr].
  destruct (byte_eqb_spec b x00) as [->|]; [exfalso; apply H; left; reflexivity|].
  rewrite IH; [reflexivity|]. intros Hin. apply H. right. exact Hin.
Qed.
Lemma d_lenenc n rest : n < 2 ^ 64 -> dlenenc (wlenenc n ++ rest) = Some (n, rest).
Proof.
  intros H. unfold dlenenc, wlenenc.
  destruct (N.ltb_spec n 251).
  { cbn [app]. rewrite (dbind_some _ _ _ _ _ (d_le1 n rest ltac:(lia))).
    destruct (N.ltb_spec n 251); [reflexivity|lia]. }
  destruct (N.ltb_spec n (2 ^ 16)).
  { cbn [app]. change xfc with (n2b 252). rewrite (dbind_some _ _ _ _ _ (d_le1 252 _ ltac:(lia))).
    cbn [N.ltb N.eqb Pos.eqb N.compare Pos.compare Pos.compare_cont]. apply d_le. exact H1. }
  destruct (N.ltb_spec n (2 ^ 24)).
  { cbn [app]. change xfd with (n2b 253). rewrite (dbind_some _ _ _ _ _ (d_le1 253 _ ltac:(lia))).
    apply d_le. exact H2. }
  cbn [app]. change xfe with (n2b 254). rewrite (dbind_some _ _ _ _ _ (d_le1 254 _ ltac:(lia))).
  apply d_le. exact H.
Qed.
Lemma d_lstr s rest : blen s < 2 ^ 64 -> dlstr (wlenenc (blen s) ++ s ++ rest) = Some (s, rest).
Proof.
  intros H. unfold dlstr. rewrite (dbind_some _ _ _ _ _ (d_lenenc _ _ H)). apply d_bytes.
  unfold blen. apply Nat2N.id.
Qed.

(** ** The stepping tactic: one [pbind] whose parser meets a known encoding *)
Create HintDb rd.
#[export] Hint Resolve rd_u8 rd_u8n rd_u16 rd_u24 rd_u32 rd_u48 rd_u64 rd_u128 rd_f32 rd_f64 rd_be16 rd_be24
  rd_be32 rd_be40 rd_cstr rd_cstr' rd_len rd_lenstr : rd.
#[export] Hint Extern 20 (_ < _) => first [assumption | lia] : rd.
#[export] Hint Extern 20 (no_nul _) => assumption : rd.
#[export] Hint Extern 20 (_ = blen _) => first [assumption | symmetry; assumption | reflexivity
   | unfold blen; rewrite ?app_length, ?wle_length; lia] : rd.

Ltac rstep :=
  first [ eapply eq_trans; [eapply pbind_ok; solve [eauto 3 with rd nocore]|]
        | eapply eq_trans; [eapply pbind_ok; apply no_app; solve [eauto 3 with rd nocore]|]
        | eapply eq_trans; [eapply pbind_ok; apply rd_u8b|]
        | eapply eq_trans; [eapply pbind_ok; apply pret_ok|] ]; cbv beta iota zeta.
Ltac rsteps := repeat rstep.

Create HintDb dd.
#[export] Hint Resolve d_bytes d_le d_le1 d_cstr d_lenenc d_lstr : dd.
#[export] Hint Extern 20 (_ < _) => first [assumption | lia] : dd.
#[export] Hint Extern 20 (no_nul _) => assumption : dd.
#[export] Hint Extern 20 (_ = length _) => first [assumption | symmetry; assumption | reflexivity] : dd.
Ltac dstep := eapply eq_trans; [eapply dbind_some; solve [eauto 3 with dd nocore]|]; cbv beta iota zeta.
Ltac dsteps := repeat dstep.
