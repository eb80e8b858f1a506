From Coq Require Import Lia.
From Verif Require Import Model.Base Model.BytesParser Model.Flags Model.Cmd Model.EventBody
  Spec.Nums Spec.Wire Spec.EventBodies Proofs.BaseLemmas Proofs.BytesParserProofs Proofs.WireLemmas.
Open Scope N_scope.

Lemma read_rest_all bs : read_rest bs = (Ok bs, []). Proof. reflexivity. Qed.
#[export] Hint Resolve read_rest_all : rd.
Lemma rd_lift {A} (x : res A) a bs : x = Ok a -> plift x bs = (Ok a, bs).
Proof. intros ->. reflexivity. Qed.
Lemma until_nul_cstr s : no_nul s -> until_nul (wcstr s) = Ok s.
Proof. intros H. unfold until_nul. rewrite <- (app_nil_r (wcstr s)), rd_cstr by exact H. reflexivity. Qed.
Ltac lift tac := eapply eq_trans; [eapply pbind_ok; apply rd_lift; tac|]; cbv beta iota zeta.

(** ** gtid *)
Lemma logical_ts_some t c s rest : t < 2 ^ 8 -> c < 2 ^ 64 -> s < 2 ^ 64 ->
  read_logical_ts (wle 1 t ++ wle 8 c ++ wle 8 s ++ rest) = (Ok (t, c, s), rest).
Proof.
  intros. unfold read_logical_ts. eapply eq_trans; [eapply pbind_ok; reflexivity|]. cbv beta.
  rewrite !blen_app. unfold blen at 1 2 3. rewrite !wle_length.
  destruct (N.ltb_spec (N.of_nat 1 + (N.of_nat 8 + (N.of_nat 8 + blen rest))) 17) as [L|L]; [lia|]. rsteps. reflexivity.
Qed.
Lemma logical_ts_none rest : N.of_nat (length rest) < 17 -> read_logical_ts rest = (Ok (0, 0, 0), rest).
Proof.
  intros H. unfold read_logical_ts. eapply eq_trans; [eapply pbind_ok; reflexivity|]. cbv beta.
  destruct (N.ltb_spec (blen rest) 17) as [L|L]; [reflexivity|unfold blen in L; lia].
Qed.
Lemma gtid_read flags sid gno ts rest : flags < 2 ^ 8 -> sid < 2 ^ 128 -> gno < 2 ^ 64 ->
  match ts with
  | Some (t, c, s) => t < 2 ^ 8 /\ c < 2 ^ 64 /\ s < 2 ^ 64
  | None => N.of_nat (length rest) < 17
  end ->
  read_gtid_log (gtid_body flags sid gno ts ++ rest) =
    (Ok (match ts with Some (t, c, s) => mk_gtid_log flags sid gno t c s | None => mk_gtid_log flags sid gno 0 0 0 end), rest).
Proof.
  intros Hf Hs Hg Ht. unfold read_gtid_log, gtid_body. rewrite <- !app_assoc. rsteps. destruct ts as [[[t c] s]|].
  - destruct Ht as (? & ? & ?). rewrite <- !app_assoc. eapply eq_trans; [eapply pbind_ok; apply logical_ts_some; assumption|]. reflexivity.
  - eapply eq_trans; [eapply pbind_ok; apply logical_ts_none; assumption|]. reflexivity.
Qed.
Lemma anonymous_eq bs : read_anonymous_gtid_log bs = read_gtid_log bs.
Proof. unfold read_anonymous_gtid_log, pbind. destruct (read_gtid_log bs) as [[[]| | |] ?]; reflexivity. Qed.

Lemma intervals_read ivs : forall last rest, intervals_ok last ivs ->
  read_gtid_intervals (length ivs) last (concat (map interval_bytes ivs) ++ rest) =
    (Ok (map (fun iv => (fst iv, snd iv - 1)) ivs), rest).
Proof.
  induction ivs as [|(s, e) ivs IH]; intros last rest H; [reflexivity|]. cbn [intervals_ok] in H.
  destruct H as (H1 & H2 & H3 & H4). cbn [length read_gtid_intervals map concat]. unfold interval_bytes at 1. cbn [fst snd].
  rewrite <- !app_assoc. rsteps.
  destruct (N.leb_spec s last); [lia|]. destruct (N.leb_spec e s); [lia|]. cbn [orb].
  eapply eq_trans; [eapply pbind_ok; apply (IH e); exact H4|]. reflexivity.
Qed.
(** an interval that is empty, out of order or not separated is rejected *)
Lemma intervals_reject ivs : forall last rest, Forall (fun iv => fst iv < 2 ^ 64 /\ snd iv < 2 ^ 64) ivs ->
  ~ intervals_ok last ivs ->
  fst (read_gtid_intervals (length ivs) last (concat (map interval_bytes ivs) ++ rest)) = Err EConstraint.
Proof.
  induction ivs as [|(s, e) ivs IH]; intros last rest Hb H; [exfalso; apply H; exact I|]. inversion Hb as [|? ? [B1 B2] Hb']; subst.
  cbn [fst snd] in *. cbn [length read_gtid_intervals map concat]. unfold interval_bytes at 1. cbn [fst snd].
  rewrite <- !app_assoc.
  erewrite pbind_ok; [|apply rd_u64; exact B1]. erewrite pbind_ok; [|apply rd_u64; exact B2].
  destruct (N.leb_spec s last); [reflexivity|]. destruct (N.leb_spec e s); [reflexivity|]. cbn [orb].
  assert (~ intervals_ok e ivs) as Hn. { intros C. apply H. cbn [intervals_ok]. auto. }
  specialize (IH e rest Hb' Hn). unfold pbind. destruct (read_gtid_intervals _ _ _) as [r ?]. cbn [fst] in IH. subst r. reflexivity.
Qed.
Lemma interval_bytes_len iv : length (interval_bytes iv) = 16%nat.
Proof. unfold interval_bytes. rewrite app_length, !wle_length. reflexivity. Qed.
Lemma concat_len {A} (f : A -> bytes) k l : (forall x, length (f x) = k) -> length (concat (map f l)) = (k * length l)%nat.
Proof. intros H. induction l as [|x l IH]; cbn; [lia|]. rewrite app_length, H, IH. lia. Qed.
Lemma concat_len_ge {A} (f : A -> bytes) k l : (forall x, (k <= length (f x))%nat) -> (k * length l <= length (concat (map f l)))%nat.
Proof. intros H. induction l as [|x l IH]; cbn; [lia|]. rewrite app_length. specialize (H x). lia. Qed.
Lemma range_bytes_len r : length (range_bytes r) = (24 + 16 * length (snd r))%nat.
Proof. unfold range_bytes. rewrite !app_length, !wle_length, (concat_len _ 16) by apply interval_bytes_len. lia. Qed.
Lemma cap16 n : n < 2 ^ 59 -> with_capacity 16 n = Ok tt.
Proof. intros H. unfold with_capacity. destruct (N.leb_spec (2 ^ 63) (16 * n)); [exfalso|reflexivity]. change (2 ^ 63) with (16 * 2 ^ 59) in *. lia. Qed.
Lemma range_read r rest : range_ok r -> N.of_nat (length (range_bytes r)) < 2 ^ 32 ->
  read_gtid_range (range_bytes r ++ rest) = (Ok (snd (range_value r)), rest).
Proof.
  destruct r as (sid & ivs). unfold range_ok. cbn [fst snd]. intros (H1 & H2) Hl. rewrite range_bytes_len in Hl. cbn [snd] in Hl.
  assert (N.of_nat (length ivs) < 2 ^ 59) by (change (2 ^ 59) with (2 ^ 27 * 2 ^ 32); lia).
  assert (N.of_nat (length ivs) < 2 ^ 64) by (change (2 ^ 64) with (2 ^ 32 * 2 ^ 32); lia).
  unfold range_bytes, read_gtid_range, range_value. cbn [fst snd]. rewrite <- !app_assoc. rsteps.
  lift ltac:(apply cap16; assumption). rewrite Nat2N.id.
  eapply eq_trans; [eapply pbind_ok; apply intervals_read; exact H2|]. reflexivity.
Qed.
Lemma ranges_read rs : forall rest, Forall range_ok rs -> N.of_nat (length (concat (map range_bytes rs))) < 2 ^ 32 ->
  prepeat (length rs) read_gtid_range (concat (map range_bytes rs) ++ rest) = (Ok (map (fun r => snd (range_value r)) rs), rest).
Proof.
  induction rs as [|r rs IH]; intros rest H Hl; [reflexivity|]. inversion H; subst. cbn [map concat length] in *.
  rewrite app_length in Hl. rewrite <- app_assoc. cbn [prepeat].
  eapply eq_trans; [eapply pbind_ok; apply range_read; [assumption|lia]|]. cbv beta.
  eapply eq_trans; [eapply pbind_ok; apply IH; [assumption|lia]|]. reflexivity.
Qed.
Lemma map_cap n : n < 2 ^ 32 -> map_with_capacity n = Ok tt.
Proof.
  intros H. unfold map_with_capacity. destruct (N.leb_spec (2 ^ 61) n) as [L|L]; [exfalso; change (2 ^ 61) with (2 ^ 29 * 2 ^ 32) in L; lia|].
  destruct (N.leb_spec (2 ^ 63) (17 * 2 ^ N.log2_up (n * 8 / 7) + 16)) as [L'|L']; [exfalso|reflexivity].
  assert (N.log2_up (n * 8 / 7) <= N.log2_up (2 ^ 33)) as B.
  { apply N.log2_up_le_mono. change (2 ^ 33) with (2 * 2 ^ 32). lia. }
  rewrite N.log2_up_pow2 in B by lia. apply (N.pow_le_mono_r 2) in B; [|lia].
  set (x := 2 ^ N.log2_up (n * 8 / 7)) in *. clearbody x. change (2 ^ 63) with (2 ^ 30 * 2 ^ 33) in L'.
  change (2 ^ 33) with 8589934592 in *. change (2 ^ 30) with 1073741824 in *. lia.
Qed.
(** inserting in order keeps the last entry of every sid *)
Definition mput (m : list (N * gtid_range)) (r : gtid_range) := map_insert m (gr_sid r) r.
Lemma inserts rs : forall m, fold_left mput (map (fun r => snd (range_value r)) rs) m =
  filter (fun e => negb (existsb (fun r => fst r =? fst e) rs)) m ++ map range_value (last_per_sid rs).
Proof.
  induction rs as [|r rs IH]; intros m.
  - cbn. rewrite app_nil_r. induction m as [|x m IHm]; [reflexivity|]. cbn. rewrite <- IHm. reflexivity.
  - cbn [map fold_left]. rewrite IH. unfold mput at 1, map_insert. cbn [range_value snd gr_sid].
    rewrite filter_app. rewrite <- app_assoc. cbn [last_per_sid existsb].
    f_equal.
    + induction m as [|x m IHm]; [reflexivity|]. cbn [filter]. rewrite (N.eqb_sym (fst r)).
      destruct (fst x =? fst r); cbn [negb orb]; [exact IHm|]. cbn [filter]. destruct (existsb (fun r0 => fst r0 =? fst x) rs); cbn [negb]; [exact IHm|].
      f_equal. exact IHm.
    + cbn [filter fst]. destruct (existsb (fun r' => fst r' =? fst r) rs); cbn [negb]; reflexivity.
Qed.
Lemma gtid_set_read rs rest : Forall range_ok rs -> N.of_nat (length (gtid_set_bytes rs)) < 2 ^ 32 ->
  read_gtid_set (gtid_set_bytes rs ++ rest) = (Ok (map range_value (last_per_sid rs)), rest).
Proof.
  intros H Hl. unfold gtid_set_bytes in *. rewrite app_length, wle_length in Hl.
  assert (length rs <= length (concat (map range_bytes rs)))%nat as L.
  { pose proof (concat_len_ge range_bytes 1 rs). rewrite Nat.mul_1_l in H0. apply H0. intros. rewrite range_bytes_len. lia. }
  assert (N.of_nat (length rs) < 2 ^ 64) by (change (2 ^ 64) with (2 ^ 32 * 2 ^ 32); lia).
  unfold read_gtid_set. rewrite <- app_assoc. rsteps. lift ltac:(apply map_cap; lia). rewrite Nat2N.id.
  eapply eq_trans; [eapply pbind_ok; apply ranges_read; [assumption|lia]|]. cbv beta. unfold pret. f_equal. f_equal.
  change (fold_left mput (map (fun r => snd (range_value r)) rs) [] = map range_value (last_per_sid rs)).
  rewrite inserts. reflexivity.
Qed.
Lemma last_per_sid_nodup rs : NoDup (map fst rs) -> last_per_sid rs = rs.
Proof.
  induction rs as [|r rs IH]; [reflexivity|]. cbn. intros H. inversion H as [|? ? Hn Hd]; subst. rewrite IH by exact Hd.
  destruct (existsb _ rs) eqn:E; [|reflexivity]. exfalso. apply existsb_exists in E as (x & Hi & E). apply N.eqb_eq in E.
  apply Hn. rewrite <- E. apply in_map. exact Hi.
Qed.
Lemma gtid_set_exact rs : Forall range_ok rs -> NoDup (map fst rs) -> N.of_nat (length (gtid_set_bytes rs)) < 2 ^ 32 ->
  gtid_set (gtid_set_bytes rs) = Ok (map range_value rs).
Proof.
  intros H Hn Hl. unfold gtid_set. rewrite <- (app_nil_r (gtid_set_bytes rs)), gtid_set_read by assumption.
  rewrite last_per_sid_nodup by exact Hn. reflexivity.
Qed.
Lemma gtid_members rs sid gno : Forall range_ok rs -> in_decoded (map range_value rs) sid gno <-> in_encoded rs sid gno.
Proof.
  intros H. unfold in_decoded, in_encoded. split.
  - intros (r & s & e & Hi & Hs & Hiv & Hg). apply in_map_iff in Hi as ((sid' & ivs) & E & Hi). injection E as -> <-.
    cbn [gr_intervals gr_sid snd fst] in *. apply in_map_iff in Hiv as ((s' & e') & E & Hiv). cbn [fst snd] in E. injection E as -> <-.
    exists ivs, s, e'. splits; try assumption.
    + lia.
    + rewrite Forall_forall in H. specialize (H _ Hi). destruct H as (_ & H). cbn [snd] in H. clear - H Hiv Hg.
      assert (s < e'); [|lia]. revert H Hiv. generalize 0. induction ivs as [|(a, b) ivs IH]; intros l H Hiv; [contradiction|].
      cbn [intervals_ok] in H. destruct Hiv as [E|Hiv]; [injection E as -> ->; apply H|]. apply (IH b); [apply H|exact Hiv].
  - intros (ivs & s & e & Hi & Hiv & Hg). exists (snd (range_value (sid, ivs))), s, (e - 1). splits.
    + apply in_map_iff. exists (sid, ivs). split; [reflexivity|exact Hi].
    + reflexivity.
    + cbn [range_value snd gr_intervals]. apply in_map_iff. exists (s, e). split; [reflexivity|exact Hiv].
    + lia.
    + lia.
Qed.

(** readers invert *)
Lemma wle_le_val bs : wle (length bs) (le_val bs) = bs.
Proof. rewrite wle_to_le. apply to_le_bytes_le_val. Qed.
Lemma le_inv k bs n rest : pmap get_le (take k) bs = (Ok n, rest) -> bs = wle k n ++ rest /\ n < 256 ^ N.of_nat k.
Proof.
  intros H. apply pmap_inv in H as (a & H & <-). apply take_inv in H as [-> H]. rewrite get_le_val. subst k.
  rewrite wle_le_val. split; [reflexivity|]. apply le_val_bound.
Qed.
Lemma u64_inv bs n rest : read_le_u64 bs = (Ok n, rest) -> bs = wle 8 n ++ rest /\ n < 2 ^ 64.
Proof. intros H. apply le_inv in H. exact H. Qed.
Lemma u128_inv bs n rest : read_le_u128 bs = (Ok n, rest) -> bs = wle 16 n ++ rest /\ n < 2 ^ 128.
Proof. intros H. apply le_inv in H. exact H. Qed.
Lemma intervals_inv n : forall last bs l rest, read_gtid_intervals n last bs = (Ok l, rest) ->
  exists ivs, n = length ivs /\ intervals_ok last ivs /\ bs = concat (map interval_bytes ivs) ++ rest /\
    l = map (fun iv => (fst iv, snd iv - 1)) ivs.
Proof.
  induction n as [|n IH]; intros last bs l rest H.
  - injection H as <- <-. exists []. splits; reflexivity.
  - cbn [read_gtid_intervals] in H. apply pbind_inv in H as (s & r1 & H1 & H). apply u64_inv in H1 as [-> H1].
    apply pbind_inv in H as (e & r2 & H2 & H). apply u64_inv in H2 as [-> H2].
    destruct (N.leb_spec s last) as [Q1|Q1]; [discriminate|]. destruct (N.leb_spec e s) as [Q2|Q2]; [discriminate|]. cbn [orb] in H.
    apply pbind_inv in H as (l' & r3 & H3 & H). injection H as <- <-. apply IH in H3 as (ivs & -> & Hok & -> & ->).
    exists ((s, e) :: ivs). splits; cbn [length intervals_ok]; auto.
Qed.
Lemma range_inv bs v rest : read_gtid_range bs = (Ok v, rest) ->
  exists r, range_ok r /\ bs = range_bytes r ++ rest /\ v = snd (range_value r).
Proof.
  intros H. unfold read_gtid_range in H. apply pbind_inv in H as (sid & r1 & H1 & H). apply u128_inv in H1 as [-> H1].
  apply pbind_inv in H as (n & r2 & H2 & H). apply u64_inv in H2 as [-> H2].
  apply pbind_inv in H as (? & r3 & H3 & H). injection H3 as _ ->.
  apply pbind_inv in H as (l & r4 & H4 & H). injection H as <- <-. apply intervals_inv in H4 as (ivs & Hn & Hok & -> & ->).
  exists (sid, ivs). splits.
  - split; assumption.
  - unfold range_bytes. cbn [fst snd]. rewrite <- Hn, N2Nat.id, <- !app_assoc. reflexivity.
  - reflexivity.
Qed.
Lemma ranges_inv n : forall bs l rest, prepeat n read_gtid_range bs = (Ok l, rest) ->
  exists rs, n = length rs /\ Forall range_ok rs /\ bs = concat (map range_bytes rs) ++ rest /\
    l = map (fun r => snd (range_value r)) rs.
Proof.
  induction n as [|n IH]; intros bs l rest H.
  - injection H as <- <-. exists []. splits; auto.
  - cbn [prepeat] in H. apply pbind_inv in H as (v & r1 & H1 & H). apply pbind_inv in H as (l' & r2 & H2 & H). injection H as <- <-.
    apply range_inv in H1 as (r & Hr & -> & ->). apply IH in H2 as (rs & -> & Hok & -> & ->). exists (r :: rs).
    splits; cbn; auto. rewrite <- app_assoc. reflexivity.
Qed.
Lemma gtid_set_inv bs m rest : read_gtid_set bs = (Ok m, rest) ->
  exists rs, Forall range_ok rs /\ bs = gtid_set_bytes rs ++ rest /\ m = map range_value (last_per_sid rs).
Proof.
  intros H. unfold read_gtid_set in H. apply pbind_inv in H as (n & r1 & H1 & H). apply u64_inv in H1 as [-> H1].
  apply pbind_inv in H as (? & r3 & H3 & H). injection H3 as _ ->.
  apply pbind_inv in H as (l & r4 & H4 & H). injection H as <- <-. apply ranges_inv in H4 as (rs & Hn & Hok & -> & ->).
  exists rs. splits; [assumption| |].
  - unfold gtid_set_bytes. rewrite <- Hn, N2Nat.id, <- !app_assoc. reflexivity.
  - change (fold_left mput (map (fun r => snd (range_value r)) rs) [] = map range_value (last_per_sid rs)). rewrite inserts. reflexivity.
Qed.
Lemma gtid_set_only bs m : gtid_set bs = Ok m ->
  exists rs trailing, Forall range_ok rs /\ bs = gtid_set_bytes rs ++ trailing /\ m = map range_value (last_per_sid rs).
Proof.
  unfold gtid_set. intros H. destruct (read_gtid_set bs) as [r rest] eqn:E. cbn in H. subst r. apply gtid_set_inv in E as (rs & ? & ? & ?).
  exists rs, rest. auto.
Qed.
(** a set whose range [bad] breaks the rules is rejected *)
Lemma gtid_set_reject good bad sid more : Forall range_ok good -> sid < 2 ^ 128 ->
  Forall (fun iv => fst iv < 2 ^ 64 /\ snd iv < 2 ^ 64) bad -> ~ intervals_ok 0 bad ->
  N.of_nat (length (gtid_set_bytes (good ++ (sid, bad) :: more))) < 2 ^ 32 ->
  gtid_set (gtid_set_bytes (good ++ (sid, bad) :: more)) = Err EConstraint.
Proof.
  intros Hg Hs Hb Hbad Hl. unfold gtid_set, gtid_set_bytes in *. rewrite app_length, wle_length in Hl. set (all := good ++ (sid, bad) :: more) in *.
  assert (length all <= length (concat (map range_bytes all)))%nat as L.
  { pose proof (concat_len_ge range_bytes 1 all) as G. rewrite Nat.mul_1_l in G. apply G. intros. rewrite range_bytes_len. lia. }
  assert (N.of_nat (length all) < 2 ^ 64) by (change (2 ^ 64) with (2 ^ 32 * 2 ^ 32); lia).
  unfold read_gtid_set. erewrite pbind_ok; [|apply rd_u64; assumption]. cbv beta.
  erewrite pbind_ok; [|apply rd_lift; apply map_cap; lia]. cbv beta. rewrite Nat2N.id.
  assert (fst (prepeat (length all) read_gtid_range (concat (map range_bytes all))) = Err EConstraint) as E.
  { clear L H. subst all. rewrite map_app, concat_app, app_length in *. cbn [map concat length] in *. rewrite app_length in Hl.
    induction good as [|r g IH].
    - cbn [map concat length app prepeat plus]. unfold read_gtid_range at 1, range_bytes at 1.
      cbn [fst snd]. rewrite <- !app_assoc. unfold pbind at 1.
      erewrite pbind_ok; [|apply rd_u128; exact Hs]. cbv beta.
      rewrite range_bytes_len in Hl. cbn [snd] in Hl.
      erewrite pbind_ok; [|apply rd_u64; change (2 ^ 64) with (2 ^ 32 * 2 ^ 32); lia]. cbv beta.
      erewrite pbind_ok; [|apply rd_lift; apply cap16; change (2 ^ 59) with (2 ^ 27 * 2 ^ 32); lia]. cbv beta. rewrite Nat2N.id.
      pose proof (intervals_reject bad 0 (concat (map range_bytes more)) Hb Hbad) as R. unfold pbind.
      destruct (read_gtid_intervals _ _ _) as [x ?]. cbn [fst] in R. subst x. reflexivity.
    - inversion Hg; subst. cbn [map concat length app prepeat plus] in *. rewrite app_length in Hl. rewrite <- app_assoc.
      erewrite pbind_ok; [|apply range_read; [assumption|lia]]. cbv beta. specialize (IH H2 ltac:(lia)).
      unfold pbind. destruct (prepeat _ _ _) as [x ?]. cbn [fst] in IH. subst x. reflexivity. }
  unfold pbind. destruct (prepeat _ _ _) as [x ?]. cbn [fst] in E. subst x. reflexivity.
Qed.

(** ** fixed layouts *)
Lemma incident_read t msg rest : t < 2 ^ 16 -> short msg ->
  read_incident (wle 2 t ++ wstr1 msg ++ rest) = (Ok (mk_incident t (N.of_nat (length msg)) msg), rest).
Proof. intros. unfold short in *. unfold read_incident, wstr1. rewrite <- !app_assoc. rsteps. reflexivity. Qed.
Lemma intvar_read key value rest : key < 2 ^ 8 -> value < 2 ^ 64 ->
  read_intvar (wle 1 key ++ wle 8 value ++ rest) =
    if key <? 4 then (Ok (key, value), rest) else (Err EConstraint, wle 8 value ++ rest).
Proof.
  intros Hk Hv. unfold read_intvar. rstep.
  assert (from_bits all_intvar_keys key = if key <? 4 then Some key else None) as ->.
  { assert (forall k, (k < 256)%nat -> from_bits all_intvar_keys (N.of_nat k) = if N.of_nat k <? 4 then Some (N.of_nat k) else None) as F.
    { intros k H. do 256 (destruct k as [|k]; [reflexivity|]). exfalso. clear - H. lia. }
    specialize (F (N.to_nat key)). rewrite N2Nat.id in F. apply F. change (2 ^ 8) with 256 in Hk. clear - Hk. lia. }
  destruct (key <? 4); [|reflexivity]. rsteps. reflexivity.
Qed.
Lemma rand_read a b rest : a < 2 ^ 64 -> b < 2 ^ 64 -> read_rand (wle 8 a ++ wle 8 b ++ rest) = (Ok (a, b), rest).
Proof. intros. unfold read_rand. rsteps. reflexivity. Qed.
Lemma rotate_read pos name : pos < 2 ^ 64 -> read_rotate (wle 8 pos ++ name) = (Ok (pos, name), []).
Proof. intros. unfold read_rotate. rsteps. reflexivity. Qed.
Lemma xid_read x rest : x < 2 ^ 64 -> read_xid (wle 8 x ++ rest) = (Ok x, rest).
Proof. apply rd_u64. Qed.
Lemma user_var_read name is_null value : N.of_nat (length name) < 2 ^ 32 -> is_null < 2 ^ 8 ->
  read_user_var (wle 4 (N.of_nat (length name)) ++ name ++ wle 1 is_null ++ value) =
    (Ok (mk_user_var (N.of_nat (length name)) name is_null value), []).
Proof. intros. unfold read_user_var. rsteps. reflexivity. Qed.
Lemma user_var_value_read t charset value (flags : option bool) : t < 2 ^ 8 -> charset < 2 ^ 32 -> N.of_nat (length value) < 2 ^ 32 ->
  read_user_var_value (wle 1 t ++ wle 4 charset ++ wle 4 (N.of_nat (length value)) ++ value ++
    match flags with Some f => [if f then x01 else x00] | None => [] end) =
    (Ok (mk_user_var_value t charset value (if flags then if match flags with Some f => f | None => false end then 1 else 0 else 0)), []).
Proof.
  intros. unfold read_user_var_value. rsteps. destruct flags as [[]|]; cbn; reflexivity.
Qed.
Lemma user_var_flags_reject t charset value f : t < 2 ^ 8 -> charset < 2 ^ 32 -> N.of_nat (length value) < 2 ^ 32 -> 2 <= f -> f < 2 ^ 8 ->
  fst (read_user_var_value (wle 1 t ++ wle 4 charset ++ wle 4 (N.of_nat (length value)) ++ value ++ wle 1 f)) = Err EConstraint.
Proof.
  intros. unfold read_user_var_value. erewrite pbind_ok; [|apply rd_u8; assumption]. cbv beta.
  erewrite pbind_ok; [|apply rd_u32; assumption]. cbv beta. erewrite pbind_ok; [|apply rd_u32; assumption]. cbv beta.
  erewrite pbind_ok; [|apply rd_len; reflexivity]. cbv beta.
  erewrite pbind_ok; [|reflexivity]. cbv beta. erewrite pbind_ok; [|apply no_app; apply rd_u8; assumption]. cbv beta.
  unfold from_bits, all_user_var_flags. rewrite N.ldiff_ones_r_low || idtac.
  destruct (N.eqb_spec (N.ldiff f 1) 0) as [E|E]; [exfalso|reflexivity].
  pose proof (N.ldiff_ones_r f 1) as D. change (N.ones 1) with 1 in D. rewrite D, N.shiftr_div_pow2, N.shiftl_mul_pow2 in E.
  change (2 ^ 1) with 2 in E. lia.
Qed.

(** ** load *)
Lemma sum_u32_ok lens : forall acc, acc + fold_right (fun l s => b2n l + s) 0 lens < 2 ^ 32 ->
  sum_u32 acc lens = Ok (acc + fold_right (fun l s => b2n l + s) 0 lens).
Proof.
  induction lens as [|l lens IH]; intros acc H; cbn [sum_u32 fold_right] in *; [f_equal; lia|].
  unfold cadd. destruct (N.leb_spec (2 ^ 32) (acc + b2n l)); [lia|]. cbn [rbind]. rewrite IH by lia. f_equal. lia.
Qed.
Lemma field_sums fields : Forall short fields ->
  fold_right (fun l s => b2n l + s) 0 (map (fun f : list byte => n2b (N.of_nat (length f))) fields) + N.of_nat (length fields) =
  N.of_nat (length (concat (map wcstr fields))).
Proof.
  induction 1 as [|f fields Hf H IH]; [reflexivity|]. cbn [map fold_right concat length]. unfold short in Hf.
  rewrite b2n_n2b_small by exact Hf. rewrite app_length. unfold wcstr at 1. rewrite app_length. cbn [length]. lia.
Qed.
Lemma load_names_read fields table schema file : load_names_ok fields table schema file ->
  N.of_nat (length (load_names fields table schema file)) < 2 ^ 32 ->
  read_load_names (N.of_nat (length table)) (N.of_nat (length schema)) (N.of_nat (length fields)) (load_names fields table schema file) =
  (Ok (map (fun f => n2b (N.of_nat (length f))) fields, concat (map wcstr fields), table, schema, file), []).
Proof.
  intros (Hf & Ht & Hs & Hnt & Hns & Hnf) Hl. unfold read_load_names, load_names in *. rewrite !app_length, map_length in Hl.
  pose proof (field_sums fields Hf) as S.
  eapply eq_trans; [eapply pbind_ok; apply rd_len; unfold blen; rewrite map_length; reflexivity|]. cbv beta.
  lift ltac:(apply sum_u32_ok; lia). rewrite N.add_0_l.
  eapply eq_trans; [eapply pbind_ok; apply rd_lift; unfold cadd; rewrite S;
    destruct (N.leb_spec (2 ^ 32) (N.of_nat (length (concat (map wcstr fields))))); [exfalso; clear - Hl H; lia|reflexivity]|]. cbv beta.
  rstep.
  eapply eq_trans; [eapply pbind_ok; apply rd_len; unfold blen, wcstr; rewrite app_length; cbn [length]; lia|]. cbv beta.
  lift ltac:(apply until_nul_cstr; exact Hnt).
  eapply eq_trans; [eapply pbind_ok; apply rd_len; unfold blen, wcstr; rewrite app_length; cbn [length]; lia|]. cbv beta.
  lift ltac:(apply until_nul_cstr; exact Hns). rstep. lift ltac:(apply until_nul_cstr; exact Hnf). reflexivity.
Qed.
Lemma load_read proxy exec skip a b c d e f g fields table schema file :
  proxy < 2 ^ 32 -> exec < 2 ^ 32 -> skip < 2 ^ 32 -> Forall (fun x => x < 2 ^ 8) [a; b; c; d; e; f; g] ->
  load_names_ok fields table schema file -> N.of_nat (length (load_names fields table schema file)) < 2 ^ 32 ->
  read_load (wle 4 proxy ++ wle 4 exec ++ wle 4 skip ++ wle 1 (N.of_nat (length table)) ++ wle 1 (N.of_nat (length schema)) ++
     wle 4 (N.of_nat (length fields)) ++ wle 1 a ++ wle 1 b ++ wle 1 c ++ wle 1 d ++ wle 1 e ++ wle 1 f ++ wle 1 g ++
     load_names fields table schema file) =
  (Ok (mk_load proxy exec skip (N.of_nat (length table)) (N.of_nat (length schema)) (N.of_nat (length fields)) a b c d e f g
     (map (fun f => n2b (N.of_nat (length f))) fields) (concat (map wcstr fields)) table schema file), []).
Proof.
  intros H1 H2 H3 H4 Hn Hl. repeat match goal with H : Forall _ (_ :: _) |- _ => inversion H; clear H; subst end.
  pose proof Hn as (_ & Ht & Hs & _). unfold short in Ht, Hs.
  assert (N.of_nat (length fields) < 2 ^ 32). { unfold load_names in Hl. rewrite !app_length, map_length in Hl. clear - Hl. unfold bytes in *. lia. }
  unfold read_load. do 13 rstep.
  eapply eq_trans; [eapply pbind_ok; apply load_names_read; assumption|]. reflexivity.
Qed.
Lemma new_load_read proxy exec skip ft eb lt ls es opt fields table schema file :
  proxy < 2 ^ 32 -> exec < 2 ^ 32 -> skip < 2 ^ 32 -> Forall short [ft; eb; lt; ls; es] -> opt < 2 ^ 8 ->
  load_names_ok fields table schema file -> N.of_nat (length (load_names fields table schema file)) < 2 ^ 32 ->
  read_new_load (wle 4 proxy ++ wle 4 exec ++ wle 4 skip ++ wle 1 (N.of_nat (length table)) ++ wle 1 (N.of_nat (length schema)) ++
     wle 4 (N.of_nat (length fields)) ++ wstr1 ft ++ wstr1 eb ++ wstr1 lt ++ wstr1 ls ++ wstr1 es ++ wle 1 opt ++
     load_names fields table schema file) =
  (Ok (mk_new_load proxy exec skip (N.of_nat (length table)) (N.of_nat (length schema)) (N.of_nat (length fields))
     (N.of_nat (length ft)) ft (N.of_nat (length eb)) eb (N.of_nat (length lt)) lt (N.of_nat (length ls)) ls
     (N.of_nat (length es)) es opt
     (map (fun f => n2b (N.of_nat (length f))) fields) (concat (map wcstr fields)) table schema file), []).
Proof.
  intros H1 H2 H3 H4 Ho Hn Hl. repeat match goal with H : Forall _ (_ :: _) |- _ => inversion H; clear H; subst end.
  pose proof Hn as (_ & Ht & Hs & _). unfold short in *.
  assert (N.of_nat (length fields) < 2 ^ 32). { unfold load_names in Hl. rewrite !app_length, map_length in Hl. clear - Hl. unfold bytes in *. lia. }
  unfold read_new_load, wstr1. rewrite <- !app_assoc. do 17 rstep.
  eapply eq_trans; [eapply pbind_ok; apply load_names_read; assumption|]. reflexivity.
Qed.
Lemma begin_load_read id block : id < 2 ^ 32 -> read_begin_load_query (wle 4 id ++ block) = (Ok (id, block), []).
Proof. intros. unfold read_begin_load_query. rsteps. reflexivity. Qed.
Lemma exec_load_read id rest : id < 2 ^ 32 -> read_exec_load (wle 4 id ++ rest) = (Ok id, rest).
Proof. apply rd_u32. Qed.
Lemma delete_file_read id rest : id < 2 ^ 32 -> read_delete_file (wle 4 id ++ rest) = (Ok id, rest).
Proof. apply rd_u32. Qed.
Lemma execute_load_query_read a b c d e f g h i payload : a < 2 ^ 32 -> b < 2 ^ 32 -> c < 2 ^ 8 -> d < 2 ^ 16 -> e < 2 ^ 16 ->
  f < 2 ^ 32 -> g < 2 ^ 32 -> h < 2 ^ 32 -> i < 2 ^ 8 ->
  read_execute_load_query (wle 4 a ++ wle 4 b ++ wle 1 c ++ wle 2 d ++ wle 2 e ++ wle 4 f ++ wle 4 g ++ wle 4 h ++ wle 1 i ++ payload) =
    (Ok (mk_elq a b c d e f g h i payload), []).
Proof. intros. unfold read_execute_load_query. rsteps. reflexivity. Qed.
(** blocks of the file: complete only up to the first zero byte, and rejected without one *)
Lemma until_nul_block block : until_nul block =
  match position x00 block with Some k => Ok (firstn k block) | None => Err (EIncomplete None) end.
Proof.
  unfold until_nul, read_until. destruct (position x00 block) as [k|]; [|reflexivity]. cbn [fst].
  replace (S k - 1)%nat with k by lia. reflexivity.
Qed.
Lemma create_file_read id block : id < 2 ^ 32 ->
  read_create_file (wle 4 id ++ block) =
    (match position x00 block with Some k => Ok (id, firstn k block) | None => Err (EIncomplete None) end, []) /\
  read_append_block (wle 4 id ++ block) =
    (match position x00 block with Some k => Ok (id, firstn k block) | None => Err (EIncomplete None) end, []).
Proof.
  intros H. split; unfold read_create_file, read_append_block; rsteps; rewrite until_nul_block;
  destruct (position x00 block); reflexivity.
Qed.

(** ** query *)
Lemma query_read proxy exec schema err vars query : proxy < 2 ^ 32 -> exec < 2 ^ 32 -> short schema -> err < 2 ^ 16 ->
  N.of_nat (length vars) < 2 ^ 16 ->
  read_query_data (wle 4 proxy ++ wle 4 exec ++ wle 1 (N.of_nat (length schema)) ++ wle 2 err ++ wle 2 (N.of_nat (length vars)) ++
     vars ++ schema ++ [x00] ++ query) =
  (Ok (mk_query_data proxy exec (N.of_nat (length schema)) err (N.of_nat (length vars)) vars schema query), []).
Proof. intros. unfold short in *. unfold read_query_data. rsteps. reflexivity. Qed.
Lemma cstrs_read names : forall rest, Forall no_nul names ->
  prepeat (length names) (read_until x00 false) (concat (map wcstr names) ++ rest) = (Ok names, rest).
Proof.
  induction names as [|n names IH]; intros rest H; [reflexivity|]. inversion H; subst. cbn [map concat length prepeat].
  rewrite <- app_assoc. rstep. eapply eq_trans; [eapply pbind_ok; apply IH; assumption|]. reflexivity.
Qed.
Lemma status_var_read v rest : status_var_ok v -> read_status_var (status_var_bytes v ++ rest) = (Ok v, rest).
Proof.
  intros H. unfold read_status_var. destruct v; cbn [status_var_bytes status_var_ok] in *; unfold wstr1, short in *;
    rewrite <- ?app_assoc; repeat match goal with H : _ /\ _ |- _ => destruct H end;
    (eapply eq_trans; [eapply pbind_ok; apply rd_u8; reflexivity|]; cbv beta iota);
    try (apply pmap_ok; auto with rd; fail); rsteps; try reflexivity.
  rewrite Nat2N.id. eapply eq_trans; [eapply pbind_ok; apply cstrs_read; assumption|]. reflexivity.
Qed.
Lemma pwhile_read {A} (p : parser A) (enc : A -> bytes) (ok : A -> Prop) :
  (forall a rest, ok a -> p (enc a ++ rest) = (Ok a, rest)) -> (forall a, ok a -> (0 < length (enc a))%nat) ->
  forall l fuel, Forall ok l -> (length (concat (map enc l)) <= fuel)%nat -> pwhile fuel p (concat (map enc l)) = (Ok l, []).
Proof.
  intros Hp He. induction l as [|a l IH]; intros fuel H Hf.
  - destruct fuel; reflexivity.
  - inversion H; subst. cbn [map concat] in *. rewrite app_length in Hf. pose proof (He a H2).
    destruct fuel as [|fuel]; [lia|]. cbn [pwhile]. destruct (enc a ++ concat (map enc l)) eqn:E.
    { apply (f_equal (@length _)) in E. rewrite app_length in E. cbn in E. lia. }
    rewrite <- E. erewrite pbind_ok; [|apply Hp; assumption]. cbv beta. erewrite pbind_ok; [|apply IH; [assumption|lia]]. reflexivity.
Qed.
Lemma status_vars_read vs : Forall status_var_ok vs ->
  read_status_vars (concat (map status_var_bytes vs)) = (Ok vs, []).
Proof.
  intros H. unfold read_status_vars, while_remaining. apply (pwhile_read _ _ status_var_ok); auto.
  - intros. apply status_var_read. assumption.
  - intros a _. destruct a; cbn; lia.
Qed.
Lemma status_var_unknown k rest : 14 <= b2n k -> read_status_vars (k :: rest) = (Err EConstraint, rest).
Proof.
  intros H. unfold read_status_vars, while_remaining. cbn [length pwhile]. unfold read_status_var.
  assert (forall k, 14 <= b2n k -> read_status_var (k :: rest) = (Err EConstraint, rest)) as R.
  { intros [] L; try reflexivity; exfalso; apply L; reflexivity. }
  erewrite pbind_err; [reflexivity|]. apply R. exact H.
Qed.
(** the marker for "too many databases to list" (254) is followed by no names *)
Lemma cstrs_missing n : forall bs, (length (filter (fun b => Byte.eqb b x00) bs) < n)%nat ->
  fst (prepeat n (read_until x00 false) bs) = Err (EIncomplete None).
Proof.
  induction n as [|n IH]; intros bs H; [lia|]. cbn [prepeat].
  destruct (read_until x00 false bs) as [r rest] eqn:E.
  destruct r as [s|e|p|]; try (unfold read_until in E; destruct (position x00 bs); discriminate).
  - destruct (read_until_inv _ _ _ _ _ E) as (a & Hn & -> & _). erewrite pbind_ok; [|exact E]. cbv beta.
    rewrite filter_app in H. cbn [filter] in H. rewrite byte_eqb_refl, app_length in H. cbn [length] in H.
    specialize (IH rest ltac:(lia)). unfold pbind. destruct (prepeat _ _ _) as [x ?]. cbn [fst] in IH. subst x. reflexivity.
  - erewrite pbind_err; [|exact E]. unfold read_until in E. destruct (position x00 bs); [discriminate|]. injection E as <- _. reflexivity.
Qed.
Lemma over_max_dbs rest : (length (filter (fun b => Byte.eqb b x00) rest) < 254)%nat ->
  fst (read_status_vars (wle 1 12 ++ wle 1 254 ++ rest)) = Err (EIncomplete None).
Proof.
  intros H. unfold read_status_vars, while_remaining. cbn [wle app length pwhile]. unfold pbind at 1.
  change (read_status_var _) with ((names <- prepeat (N.to_nat 254) (read_until x00 false) ;; pret (SvUpdatedDbNames names)) rest).
  pose proof (cstrs_missing (N.to_nat 254) rest) as M. specialize (M ltac:(change (N.to_nat 254) with 254%nat; exact H)).
  unfold pbind. destruct (prepeat _ _ _) as [x ?]. cbn [fst] in M. subst x. reflexivity.
Qed.
