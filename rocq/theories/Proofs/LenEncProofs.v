From Verif Require Import Model.Base Model.BytesParser Model.LenEnc Spec.Nums Spec.Codec Spec.LenEncSpec
  Proofs.BaseLemmas Proofs.BytesParserProofs Proofs.CodecProofs.
Open Scope N_scope.

Lemma is_le_to_le_bytes k n : n < 256 ^ N.of_nat k -> is_le k n (to_le_bytes k n).
Proof. intros H. split; [apply to_le_bytes_length|]. rewrite le_val_to_le_bytes. apply N.mod_small; assumption. Qed.

Lemma is_le_unique k n s : is_le k n s -> s = to_le_bytes k n.
Proof. intros [<- <-]. symmetry. apply to_le_bytes_le_val. Qed.

(** reading *)
Lemma read_lei_prefixed b s rest :
  b2n b = 0xfc /\ length s = 2%nat \/ b2n b = 0xfd /\ length s = 3%nat \/ b2n b = 0xfe /\ length s = 8%nat ->
  exists l, read_len_enc_int (b :: s ++ rest) = (Ok l, rest) /\ lei_to_u64 l = Some (le_val s).
Proof.
  intros H. unfold read_len_enc_int.
  rewrite (pbind_ok _ _ _ _ _ (read_u8_cons b (s ++ rest))).
  destruct H as [[-> H]|[[-> H]|[-> H]]].
  - exists (Len3 (le_val s)). split; [|reflexivity]. apply pmap_ok, read_le_u16_spec; assumption.
  - exists (Len4 (le_val s)). split; [|reflexivity]. apply pmap_ok, read_le_u24_spec; assumption.
  - exists (Len9 (le_val s)). split; [|reflexivity]. apply pmap_ok, read_le_u64_spec; assumption.
Qed.

Lemma read_lei_small b rest : b2n b < 251 -> read_len_enc_int (b :: rest) = (Ok (Len1 (b2n b)), rest).
Proof.
  intros H. unfold read_len_enc_int.
  rewrite (pbind_ok _ _ _ _ _ (read_u8_cons b rest)).
  repeat match goal with |- context [?a =? ?b] => destruct (N.eqb_spec a b); [lia|] end.
  reflexivity.
Qed.

Lemma read_lei_any n enc rest : lenenc_any n enc ->
  exists l, read_len_enc_int (enc ++ rest) = (Ok l, rest) /\ lei_to_u64 l = Some n.
Proof.
  intros H. destruct H as [n b Hn Hb|n s [H1 H2]|n s [H1 H2]|n s [H1 H2]].
  - exists (Len1 n). split; [|reflexivity]. subst n. cbn [app]. apply read_lei_small. exact Hn.
  - subst n. apply (read_lei_prefixed xfc). left; auto.
  - subst n. apply (read_lei_prefixed xfd). right; left; auto.
  - subst n. apply (read_lei_prefixed xfe). right; right; auto.
Qed.

Lemma lenenc_is_any n enc : lenenc n enc -> lenenc_any n enc.
Proof. intros []; econstructor; eassumption. Qed.

Lemma read_lei_lenenc n enc rest : lenenc n enc ->
  exists l, read_len_enc_int (enc ++ rest) = (Ok l, rest) /\ lei_to_u64 l = Some n.
Proof. intros H. apply read_lei_any, lenenc_is_any, H. Qed.

Lemma read_lei_inv bs l rest n :
  read_len_enc_int bs = (Ok l, rest) -> lei_to_u64 l = Some n ->
  exists enc, bs = enc ++ rest /\ lenenc_any n enc.
Proof.
  destruct bs as [|b bs]; [discriminate|]. unfold read_len_enc_int.
  rewrite (pbind_ok _ _ _ _ _ (read_u8_cons b bs)).
  destruct (N.eqb_spec (b2n b) 0xfb); [intros E; inversion E; subst; discriminate|].
  destruct (N.eqb_spec (b2n b) 0xfc) as [Hb|].
  { intros E Hn. apply pmap_inv in E. destruct E as (a & E & <-). apply pmap_inv in E.
    destruct E as (s & E & <-). apply take_inv in E. destruct E as [-> L]. injection Hn as <-.
    rewrite get_le_val. exists (b :: s). split; [reflexivity|].
    replace b with xfc by (apply b2n_inj; rewrite Hb; reflexivity). constructor. split; auto. }
  destruct (N.eqb_spec (b2n b) 0xfd) as [Hb|].
  { intros E Hn. apply pmap_inv in E. destruct E as (a & E & <-).
    assert (E' := E). apply pmap_inv in E'. destruct E' as (s & E' & _). apply take_inv in E'.
    destruct E' as [-> L]. rewrite read_le_u24_spec in E by assumption. injection E as <-.
    injection Hn as <-. exists (b :: s). split; [reflexivity|].
    replace b with xfd by (apply b2n_inj; rewrite Hb; reflexivity). constructor. split; auto. }
  destruct (N.eqb_spec (b2n b) 0xfe) as [Hb|].
  { intros E Hn. apply pmap_inv in E. destruct E as (a & E & <-). apply pmap_inv in E.
    destruct E as (s & E & <-). apply take_inv in E. destruct E as [-> L]. injection Hn as <-.
    rewrite get_le_val. exists (b :: s). split; [reflexivity|].
    replace b with xfe by (apply b2n_inj; rewrite Hb; reflexivity). constructor. split; auto. }
  destruct (N.eqb_spec (b2n b) 0xff); [intros E; inversion E; subst; discriminate|].
  intros E Hn. unfold pret in E. injection E as <- <-. injection Hn as <-.
  exists [b]. split; [reflexivity|]. pose proof (b2n_lt b). constructor; [lia|reflexivity].
Qed.

(** writing *)
Lemma lei_write_spec n : n < 2 ^ 64 -> n <> 251 -> lenenc n (lei_write (lei_from n)).
Proof.
  intros H Hn. unfold lei_from.
  destruct (N.leb_spec n 0xfb).
  { cbn [lei_write]. constructor; [lia|]. fold (b2n (n2b n)). rewrite b2n_n2b. lia. }
  destruct (N.leb_spec n 0xffff).
  { cbn [lei_write]. constructor; [lia|lia|]. apply is_le_to_le_bytes. change (256 ^ N.of_nat 2) with 65536. lia. }
  destruct (N.leb_spec n 0xffffff).
  { cbn [lei_write]. rewrite firstn_to_le_bytes by lia. constructor; [lia|lia|].
    apply is_le_to_le_bytes. change (256 ^ N.of_nat 3) with 16777216. lia. }
  cbn [lei_write]. constructor; [lia|lia|].
  apply is_le_to_le_bytes. change (256 ^ N.of_nat 8) with (2 ^ 64). lia.
Qed.

Lemma lei_write_251 : lei_write (lei_from 251) = [xfb].
Proof. reflexivity. Qed.

Lemma lei_round_trip n rest : n < 2 ^ 64 -> n <> 251 ->
  read_len_enc_int (lei_write (lei_from n) ++ rest) = (Ok (lei_from n), rest) /\ lei_to_u64 (lei_from n) = Some n.
Proof.
  intros H Hn. split.
  - assert (T : forall k m, m < 256 ^ N.of_nat k -> le_val (to_le_bytes k m) = m).
    { intros k m Hm. rewrite le_val_to_le_bytes. apply N.mod_small; assumption. }
    unfold lei_from.
    destruct (N.leb_spec n 0xfb).
    { cbn [lei_write app]. rewrite read_lei_small; rewrite b2n_n2b_small by lia; [reflexivity|lia]. }
    destruct (N.leb_spec n 0xffff).
    { cbn [lei_write app]. unfold read_len_enc_int.
      rewrite (pbind_ok _ _ _ _ _ (read_u8_cons _ _)). apply (pmap_ok Len3).
      rewrite read_le_u16_spec by apply to_le_bytes_length. rewrite T; [reflexivity|].
      change (256 ^ N.of_nat 2) with 65536. lia. }
    destruct (N.leb_spec n 0xffffff).
    { cbn [lei_write app]. rewrite firstn_to_le_bytes by lia. unfold read_len_enc_int.
      rewrite (pbind_ok _ _ _ _ _ (read_u8_cons _ _)). apply (pmap_ok Len4).
      rewrite read_le_u24_spec by apply to_le_bytes_length. rewrite T; [reflexivity|].
      change (256 ^ N.of_nat 3) with 16777216. lia. }
    cbn [lei_write app]. unfold read_len_enc_int.
    rewrite (pbind_ok _ _ _ _ _ (read_u8_cons _ _)). apply (pmap_ok Len9).
    rewrite read_le_u64_spec by apply to_le_bytes_length. rewrite T; [reflexivity|].
    change (256 ^ N.of_nat 8) with (2 ^ 64). lia.
  - unfold lei_from. repeat match goal with |- context [?a <=? ?b] => destruct (N.leb_spec a b) end; reflexivity.
Qed.

Lemma lei_shortest n e1 e2 : lenenc n e1 -> lenenc_any n e2 -> (length e1 <= length e2)%nat.
Proof.
  intros H1 H2.
  destruct H2 as [n b Hn Hb|n s [L V]|n s [L V]|n s [L V]];
  [| pose proof (le_val_bound_k _ _ L) as B; rewrite V in B..];
  inversion H1 as [m b' G1 G2|m s' G1 G2 [G3 G4]|m s' G1 G2 [G3 G4]|m s' G1 G2 [G3 G4]]; subst;
  cbn [length]; rewrite ?G3, ?L; try lia;
  try (change (256 ^ N.of_nat 2) with 65536 in B; change (2 ^ 16) with 65536 in *; change (2 ^ 24) with 16777216 in *; lia);
  try (change (256 ^ N.of_nat 3) with 16777216 in B; change (2 ^ 24) with 16777216 in *; lia);
  try (change (2 ^ 16) with 65536 in *; change (2 ^ 24) with 16777216 in *; lia).
Qed.

(** strings *)
Lemma read_les_lei l enc s rest :
  read_len_enc_int (enc ++ s ++ rest) = (Ok l, s ++ rest) -> lei_to_u64 l = Some (blen s) ->
  read_len_enc_str (enc ++ s ++ rest) = (Ok (LesBytes s), rest).
Proof.
  intros H1 H2. unfold read_len_enc_str. rewrite (pbind_ok _ _ _ _ _ H1).
  destruct l; cbn [lei_to_u64] in H2; try discriminate; cbn [lei_to_u64]; injection H2 as ->;
  apply (pmap_ok LesBytes), read_len_app; reflexivity.
Qed.

Lemma read_les_lenenc s enc rest : lenenc_str s enc ->
  read_len_enc_str (enc ++ rest) = (Ok (LesBytes s), rest).
Proof.
  intros (l & H & ->). rewrite <- app_assoc.
  destruct (read_lei_lenenc _ _ (s ++ rest) H) as (lei & H1 & H2).
  eapply read_les_lei; eassumption.
Qed.

Lemma les_write_spec s : blen s < 2 ^ 64 -> blen s <> 251 -> lenenc_str s (les_write (LesBytes s)).
Proof.
  intros H1 H2. exists (lei_write (lei_from (blen s))). split; [|reflexivity].
  apply (lei_write_spec (blen s)); assumption.
Qed.

Lemma les_round_trip s rest : blen s < 2 ^ 64 -> blen s <> 251 ->
  read_len_enc_str (les_write (LesBytes s) ++ rest) = (Ok (LesBytes s), rest).
Proof. intros H1 H2. apply read_les_lenenc, les_write_spec; assumption. Qed.

Lemma les_251 s rest : blen s = 251 ->
  read_len_enc_str (les_write (LesBytes s) ++ rest) = (Ok LesNull, s ++ rest).
Proof. intros H. unfold les_write. rewrite H. cbn [lei_from N.leb]. rewrite lei_write_251. reflexivity. Qed.

Lemma les_null_round_trip rest :
  read_len_enc_str (les_write LesNull ++ rest) = (Ok LesNull, rest) /\
  read_len_enc_str (les_write LesErr ++ rest) = (Ok LesErr, rest).
Proof. split; reflexivity. Qed.

Lemma read_les_bytes_inv bs s rest : read_len_enc_str bs = (Ok (LesBytes s), rest) ->
  exists enc, bs = enc ++ s ++ rest /\ lenenc_any (blen s) enc.
Proof.
  unfold read_len_enc_str. intros H. apply pbind_inv in H. destruct H as (l & mid & H1 & H2).
  destruct (lei_to_u64 l) as [n|] eqn:E.
  - assert (H3 : pmap LesBytes (read_len n) mid = (Ok (LesBytes s), rest)) by (destruct l; try discriminate; exact H2).
    apply pmap_inv in H3. destruct H3 as (a & H3 & Ea). injection Ea as ->.
    apply read_len_inv in H3. destruct H3 as [-> <-].
    destruct (read_lei_inv _ _ _ _ H1 E) as (enc & -> & Hany). eauto.
  - destruct l; discriminate.
Qed.

(** hygiene *)
Lemma good_read_lei : good read_len_enc_int.
Proof.
  assert (G : good (len <- read_u8 ;;
     if len =? 0xfb then pret LeiNull
     else if len =? 0xfc then pmap Len3 read_le_u16
     else if len =? 0xfd then pmap Len4 read_le_u24
     else if len =? 0xfe then pmap Len9 read_le_u64
     else if len =? 0xff then pret LeiErr
     else pret (Len1 len))).
  { apply good_bind; auto with parse. intros n.
    repeat match goal with |- context [if ?b then _ else _] => destruct b end; auto with parse. }
  destruct G as (G1 & G2 & G3). split; [|split].
  - intros [|b bs]; [right; eexists; reflexivity|]. exact (G1 (b :: bs)).
  - intros [|b bs]; [exists []; reflexivity|]. exact (G2 (b :: bs)).
  - intros [|b bs] ext a rest H; [discriminate|]. exact (G3 (b :: bs) ext a rest H).
Qed.
Lemma good_read_les : good read_len_enc_str.
Proof.
  unfold read_len_enc_str. apply good_bind; [apply good_read_lei|].
  intros []; cbn [lei_to_u64]; auto with parse.
Qed.
#[export] Hint Resolve good_read_lei good_read_les : parse.
