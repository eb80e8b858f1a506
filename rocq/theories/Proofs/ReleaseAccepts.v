(** * Proofs: what a release build takes for a greeting, a first event, an event *)
From Coq Require Import Strings.String.
From Coq Require Import List NArith ZArith Lia Arith Bool.
From Verif Require Import Model.Base Model.BytesParser Model.LenEnc Model.Utf8 Model.Conn Model.Flags Model.Packet Model.Auth Model.Cmd Model.Col Model.Row Model.Stmt
  Model.Fmt Model.Extract Model.Session Model.Event Model.EventBody Model.Stream Model.Release
  Spec.Nums Spec.LenEncSpec Spec.Wire Spec.Packets Spec.Accepts Spec.AcceptsEvents Spec.AcceptsFile Spec.ReleaseAccepts
  Proofs.BaseLemmas Proofs.BytesParserProofs Proofs.PacketProofs Proofs.AcceptsProofs Proofs.AcceptsPackets Proofs.AcceptsRows Proofs.AcceptsEvents Proofs.AcceptsBodies Proofs.AcceptsFileProofs.
Import ListNotations.
Open Scope N_scope.

Lemma gives_rsub k a b n : a < 2 ^ k -> b < 2 ^ k -> n = rsub k a b <-> gives k a b n.
Proof.
  intros A B. unfold rsub, gives. destruct (N.ltb_spec a b) as [L|L]; split.
  - intros ->. split; [lia|]. replace (2 ^ k + a - b + b) with (a + 1 * 2 ^ k) by lia. rewrite N.mod_add by lia. apply N.mod_small. exact A.
  - intros [N1 N2]. destruct (N.lt_ge_cases (n + b) (2 ^ k)) as [X|X]; [rewrite N.mod_small in N2 by exact X; lia|].
    replace (n + b) with (n + b - 2 ^ k + 1 * 2 ^ k) in N2 by lia. rewrite N.mod_add, N.mod_small in N2 by lia. lia.
  - intros ->. split; [lia|]. rewrite N.mod_small; lia.
  - intros [N1 N2]. destruct (N.lt_ge_cases (n + b) (2 ^ k)) as [X|X]; [rewrite N.mod_small in N2 by exact X; lia|].
    replace (n + b) with (n + b - 2 ^ k + 1 * 2 ^ k) in N2 by lia. rewrite N.mod_add, N.mod_small in N2 by lia. lia.
Qed.
Lemma header_event_len h w : header_layout h w -> h_event_len h < 2 ^ 32.
Proof.
  intros H. unfold header_layout in H. do 3 (apply fields_cons_inv in H; destruct H as (? & ? & -> & _ & H)).
  apply fields_cons_inv in H. destruct H as (w4 & ? & -> & X & _). exact (is_le_bound 4 _ _ X).
Qed.
Lemma data_gives h w n : header_layout h w -> n = data_len_rel h <-> gives 32 (h_event_len h) 19 n.
Proof. intros H. apply gives_rsub; [exact (header_event_len _ _ H)|reflexivity]. Qed.

(** ** Greeting *)
Lemma te_u8_small : takes_exactly read_u8 (fun n w => n < 2 ^ 8 /\ byte1 n w).
Proof. eapply te_iff; [|apply te_u8]. intros n w. split; [|tauto]. intros H. split; [exact (is_le_bound 1 n w H)|exact H]. Qed.
Lemma accepts_greeting_rel : takes_exactly read_initial_handshake_rel release_greeting_layout.
Proof.
  unfold read_initial_handshake_rel, release_greeting_layout, release_greeting_consistent. cbv zeta.
  apply (te_field _ byte1 _ hs_protocol_version); [apply te_u8|intros version].
  apply (te_field _ cstring _ hs_server_version); [apply te_until|intros server_version].
  apply (te_field _ (is_le 4) _ hs_connection_id); [apply te_u32|intros connection_id].
  apply (te_field_if _ (fun s => N.of_nat (length s) = 8) exactly _ hs_auth_data_1); [apply te_len| |intros data_1 Hd1].
  { intros v H. decompose [and] H. lia. }
  apply (te_skip _ (fun s w => N.of_nat (length s) = 1 /\ exactly s w)); [apply te_len|intros w; apply (any_len 1)|intros _].
  apply (te_field_if _ (fun n => n < 2 ^ 16) (is_le 2) _ (fun h => hs_capabilities h mod 2 ^ 16)); [apply te_u16_small| |intros lower Hl].
  { intros v _. apply N.mod_lt. lia. }
  apply (te_field _ byte1 _ hs_charset); [apply te_u8|intros charset].
  apply (te_field _ (is_le 2) _ hs_status); [apply te_u16|intros status].
  apply (te_field_if _ (fun n => n < 2 ^ 16) (is_le 2) _ (fun h => hs_capabilities h / 2 ^ 16)); [apply te_u16_small| |intros upper Hu].
  { intros v H. decompose [and] H. apply N.div_lt_upper_bound; lia. }
  apply (te_field_if _ (fun n => n < 2 ^ 8) byte1 _ hs_auth_len); [apply te_u8_small| |intros auth_len Ha].
  { intros v H. decompose [and] H. match goal with X : if cap_secure_connection _ then _ else _ |- _ => destruct (cap_secure_connection (hs_capabilities v)); [destruct X as (n & [_ X] & _); rewrite <- X; apply N.mod_lt; discriminate|apply X] end. }
  apply (te_skip _ (fun s w => N.of_nat (length s) = 10 /\ exactly s w)); [apply te_len|intros w; apply (any_len 10)|intros _].
  rewrite truncate_secure, truncate_plugin. remember (N.lor lower (N.shiftl upper 16)) as cap eqn:Ec.
  apply (te_field_if _ (fun s => if cap_secure_connection cap then exists n, gives 8 auth_len 8 n /\ N.of_nat (length s) = N.max 13 n else s = [])
    exactly _ hs_auth_data_2).
  { destruct (cap_secure_connection cap); [|apply te_ret; unfold exactly; intuition congruence].
    eapply te_iff; [|apply te_len]. intros s w. split.
    - intros [L E]. split; [|exact E]. exists (rsub 8 auth_len 8). split; [apply gives_rsub; [exact Ha|reflexivity|reflexivity]|exact L].
    - intros [(n & G & L) E]. apply gives_rsub in G; [|exact Ha|reflexivity]. subst n. auto. }
  { intros v H. decompose [and] H. assert (E : hs_capabilities v = cap) by (rewrite Ec; apply two_halves; auto).
    match goal with X : if cap_secure_connection _ then _ else _ |- _ => rewrite E in X end. subst auth_len. destruct (cap_secure_connection cap); [assumption|tauto]. }
  intros data_2 Hd2.
  apply (te_subst _ _ (fun h => [(if cap_plugin_auth cap then cstring else fun _ => exactly []) (hs_plugin h)])).
  { intros v H. decompose [and] H. assert (E : hs_capabilities v = cap) by (rewrite Ec; apply two_halves; auto). rewrite E. destruct (cap_plugin_auth cap); reflexivity. }
  apply (te_field_if _ (fun s => if cap_plugin_auth cap then utf8_valid s = true else s = []) (if cap_plugin_auth cap then cstring else fun _ => exactly []) _ hs_plugin).
  { destruct (cap_plugin_auth cap); [apply te_utf8, te_until|apply te_ret; unfold exactly; tauto]. }
  { intros v H. decompose [and] H. assert (E : hs_capabilities v = cap) by (rewrite Ec; apply two_halves; auto). match goal with X : if cap_plugin_auth _ then _ else _ |- _ => rewrite E in X end. assumption. }
  intros plugin Hp. apply te_done. intros v. split.
  - intros H. decompose [and] H. assert (E : hs_capabilities v = cap) by (rewrite Ec; apply two_halves; auto). clear Ec. destruct v; cbn in *. congruence.
  - intros ->. cbn [hs_protocol_version hs_server_version hs_connection_id hs_auth_data_1 hs_charset hs_status hs_capabilities hs_auth_len hs_auth_data_2 hs_plugin].
    destruct (proj2 (two_halves cap lower upper Hl) Ec) as [E1 E2].
    assert (B : cap < 2 ^ 32) by (rewrite (N.div_mod cap (2 ^ 16)), E1, E2 by lia; lia).
    assert (D : if cap_secure_connection cap then exists n, gives 8 auth_len 8 n /\ N.of_nat (length data_2) = N.max 13 n else auth_len < 2 ^ 8 /\ data_2 = [])
      by (destruct (cap_secure_connection cap); auto).
    repeat split; auto. lia.
Qed.

(** ** Events *)
Lemma drop_short (s : bytes) : (length s < 4)%nat -> drop_last4 s = s.
Proof.
  intros L. unfold drop_last4, rsub, blen. destruct (N.ltb_spec (N.of_nat (length s)) 4); [|lia].
  destruct (N.ltb_spec (N.of_nat (length s)) (2 ^ 64 + N.of_nat (length s) - 4)) as [X|X]; [reflexivity|]. change (2 ^ 64) with 18446744073709551616 in X. lia.
Qed.
Lemma drop_long (s t : bytes) : length t = 4%nat -> drop_last4 (s ++ t) = s.
Proof.
  intros L. unfold drop_last4, rsub, blen. rewrite app_length, L. destruct (N.ltb_spec (N.of_nat (length s + 4)) 4); [lia|].
  destruct (N.ltb_spec (N.of_nat (length s + 4)) (N.of_nat (length s + 4) - 4)); [lia|]. unfold split_at. cbn [fst].
  replace (N.to_nat (N.of_nat (length s + 4) - 4)) with (length s) by lia. rewrite firstn_app, Nat.sub_diag, firstn_all, firstn_O, app_nil_r. reflexivity.
Qed.
Lemma drop_is s data : data = drop_last4 s <-> (exists trailer, s = data ++ trailer /\ length trailer = 4%nat) \/ ((length s < 4)%nat /\ data = s).
Proof.
  destruct (Nat.lt_ge_cases (length s) 4) as [L|L].
  - rewrite (drop_short s L). split; [intros ->; auto|]. intros [(t & -> & T)|[_ ->]]; [rewrite app_length in L; lia|reflexivity].
  - set (k := (length s - 4)%nat). assert (T : length (skipn k s) = 4%nat) by (rewrite skipn_length; unfold k; lia).
    assert (D : drop_last4 s = firstn k s) by (rewrite <- (firstn_skipn k s) at 1; apply drop_long, T). split.
    + intros ->. left. exists (skipn k s). rewrite D, firstn_skipn. auto.
    + intros [(t & -> & T')|[X _]]; [|lia]. symmetry. apply drop_long, T'.
Qed.
Lemma event_body_rel crc (checksums : bool) : takes_exactly (header <- read_event_header ;; data <- read_len (data_len_rel header) ;;
    let data := if checksums then drop_last4 data else data in
    match event_kind_of (h_type header) with
    | Some k => pret (Some (mk_event k header data))
    | None => pret None
    end) (release_event_layout crc checksums false).
Proof.
  intros bs o rest.
  assert (R : forall h data (m : bytes), match event_kind_of (h_type h) with Some k => pret (Some (mk_event k h data)) | None => pret None end m =
     (Ok match event_kind_of (h_type h) with Some k => Some (mk_event k h data) | None => None end, m)) by (intros h data m; destruct (event_kind_of (h_type h)); reflexivity).
  assert (D : forall body data, data = (if checksums then drop_last4 body else body) <-> if checksums
     then (exists trailer, body = data ++ trailer /\ length trailer = 4%nat) \/ ((length body < 4)%nat /\ data = body) else data = body).
  { intros body data. destruct checksums; [apply drop_is|reflexivity]. }
  unfold pbind at 1. split.
  - destruct (read_event_header bs) as [[h|? |?|] m1] eqn:E1; try discriminate. apply accepts_header in E1. destruct E1 as (hw & -> & H).
    unfold pbind. destruct (read_len (data_len_rel h) m1) as [[body|? |?|] m2] eqn:E2; try discriminate. apply te_len in E2. destruct E2 as (w & -> & L & ->).
    rewrite R. intros [= <- <-]. exists (hw ++ body). rewrite app_assoc. split; [reflexivity|]. exists h, hw, body, (if checksums then drop_last4 body else body).
    split; [reflexivity|]. split; [exact H|]. split; [apply (data_gives h hw); assumption|]. split; [apply D; reflexivity|]. split; [rewrite andb_false_r; discriminate|reflexivity].
  - intros (w & -> & h & hw & body & data & -> & H & G & B & _ & ->). apply (data_gives h hw _ H) in G. apply D in B. subst data.
    rewrite <- app_assoc. rewrite (proj2 (accepts_header (hw ++ body ++ rest) h (body ++ rest))) by eauto. unfold pbind.
    rewrite (proj2 (te_len (data_len_rel h) (body ++ rest) body rest)) by (exists body; repeat split; exact G). apply R.
Qed.
Lemma split_last4_ok (s a b : bytes) : split_last4 s = Ok (a, b) <-> s = a ++ b /\ length b = 4%nat.
Proof.
  unfold split_last4, rsub, blen. change (2 ^ 64) with 18446744073709551616. destruct (N.ltb_spec (N.of_nat (length s)) 4) as [L|L].
  - destruct (N.ltb_spec (N.of_nat (length s)) (18446744073709551616 + N.of_nat (length s) - 4)) as [X|X]; [|lia].
    split; [discriminate|]. intros [-> T]. rewrite app_length in L. lia.
  - destruct (N.ltb_spec (N.of_nat (length s)) (N.of_nat (length s) - 4)); [lia|]. unfold split_at. split.
    + intros [= <- <-]. rewrite firstn_skipn, skipn_length. split; [reflexivity|lia].
    + intros [-> T]. rewrite app_length, T. replace (N.to_nat (N.of_nat (length a + 4) - 4)) with (length a) by lia.
      rewrite firstn_app, skipn_app, firstn_all, skipn_all, Nat.sub_diag, firstn_O, app_nil_r. reflexivity.
Qed.
(** in both builds, four bytes are needed *)
Lemma split_last4_checked (s : bytes) : (exists a b, split_last4 s = Ok (a, b)) \/ (split_last4 s = Panic PIndex /\ (length s < 4)%nat).
Proof.
  destruct (Nat.lt_ge_cases (length s) 4) as [L|L].
  - right. split; [|exact L]. unfold split_last4, rsub, blen. change (2 ^ 64) with 18446744073709551616. destruct (N.ltb_spec (N.of_nat (length s)) 4); [|lia].
    destruct (N.ltb_spec (N.of_nat (length s)) (18446744073709551616 + N.of_nat (length s) - 4)); [reflexivity|lia].
  - left. exists (firstn (length s - 4) s), (skipn (length s - 4) s). apply split_last4_ok. rewrite firstn_skipn, skipn_length. split; [reflexivity|lia].
Qed.
Lemma u32_whole (t : bytes) : length t = 4%nat -> fst (read_le_u32 t) = Ok (le_val t).
Proof. intros L. rewrite (proj2 (te_u32 t (le_val t) [])); [reflexivity|]. exists t. rewrite app_nil_r. repeat split. exact L. Qed.
Lemma check_rel crc bs : snd (check_checksum_rel crc bs) = bs /\ (fst (check_checksum_rel crc bs) = Ok tt <-> checked_layout crc bs).
Proof.
  unfold check_checksum_rel, pbind, ppeek, plift, checked_layout.
  destruct (read_event_header bs) as [[h|? |?|] m] eqn:E1; cbn [fst].
  2-4: split; [reflexivity|]; split; [discriminate|]; intros (h & hw & more & front & t & rest & E & H & _);
    pose proof (proj2 (accepts_header bs h more) (ex_intro _ hw (conj E H))) as X; congruence.
  apply accepts_header in E1. destruct E1 as (hw & E1 & H).
  destruct (read_len (h_event_len h) bs) as [[s|? |?|] m2] eqn:E2; cbn [fst].
  - apply te_len in E2. destruct E2 as (w & E2 & L & ->). destruct (split_last4_checked s) as [(a & b & E3)|[E3 L3]]; rewrite E3.
    + apply split_last4_ok in E3. destruct E3 as [-> T]. rewrite (u32_whole b T). split; [destruct (_ =? _); reflexivity|].
      destruct (N.eqb_spec (le_val b) (crc a)) as [X|X].
      * split; [|reflexivity]. intros _. exists h, hw, m, a, b, m2. rewrite app_assoc. rewrite app_length in L. repeat split; try assumption. lia.
      * split; [discriminate|]. intros (h' & hw' & more & front & t & rest & F1 & H' & F2 & T' & L' & Y). exfalso. apply X.
        assert (h' = h) as -> by (rewrite E1 in F1; symmetry in F1; eapply header_det; [exact H'|exact H|exact F1]).
        rewrite E2, app_assoc in F2. apply app_eq_app_len in F2; [|rewrite !app_length in *; lia]. destruct F2 as [F2 _].
        apply app_eq_app_len in F2; [|rewrite !app_length in *; lia]. destruct F2 as [-> ->]. exact Y.
    + split; [reflexivity|]. split; [discriminate|]. intros (h' & hw' & more & front & t & rest & F1 & H' & F2 & T' & L' & Y).
      assert (h' = h) as -> by (rewrite E1 in F1; symmetry in F1; eapply header_det; [exact H'|exact H|exact F1]). lia.
  - split; [reflexivity|]. split; [discriminate|]. intros (h' & hw' & more & front & t & rest & F1 & H' & F2 & T' & L' & Y).
    assert (h' = h) as -> by (rewrite E1 in F1; symmetry in F1; eapply header_det; [exact H'|exact H|exact F1]).
    assert (X : read_len (h_event_len h) bs = (Ok (front ++ t), rest)) by (apply te_len; exists (front ++ t); rewrite <- app_assoc, app_length; repeat split; [exact F2|lia]). congruence.
  - split; [reflexivity|]. split; [discriminate|]. intros (h' & hw' & more & front & t & rest & F1 & H' & F2 & T' & L' & Y).
    assert (h' = h) as -> by (rewrite E1 in F1; symmetry in F1; eapply header_det; [exact H'|exact H|exact F1]).
    assert (X : read_len (h_event_len h) bs = (Ok (front ++ t), rest)) by (apply te_len; exists (front ++ t); rewrite <- app_assoc, app_length; repeat split; [exact F2|lia]). congruence.
  - split; [reflexivity|]. split; [discriminate|]. intros (h' & hw' & more & front & t & rest & F1 & H' & F2 & T' & L' & Y).
    assert (h' = h) as -> by (rewrite E1 in F1; symmetry in F1; eapply header_det; [exact H'|exact H|exact F1]).
    assert (X : read_len (h_event_len h) bs = (Ok (front ++ t), rest)) by (apply te_len; exists (front ++ t); rewrite <- app_assoc, app_length; repeat split; [exact F2|lia]). congruence.
Qed.
(** the verified bytes are inside the event *)
Lemma event_covers h hw body : header_layout h hw -> gives 32 (h_event_len h) 19 (N.of_nat (length body)) -> h_event_len h <= N.of_nat (length (hw ++ body)).
Proof.
  intros H [_ <-]. pose proof (header_len _ _ H) as L. rewrite app_length, L. etransitivity; [apply N.mod_le; discriminate|]. lia.
Qed.
Lemma accepts_event_rel crc self validate : takes_exactly (parse_event_rel crc self validate) (release_event_layout crc (p_checksum self) validate).
Proof.
  unfold parse_event_rel. cbv zeta. intros bs o rest. pose proof (event_body_rel crc (p_checksum self) bs o rest) as P. cbv zeta in P. unfold pbind at 1.
  destruct (p_checksum self && validate) eqn:B.
  2:{ cbv [pret] in P |- *. rewrite P. unfold release_event_layout. rewrite B, andb_false_r. reflexivity. }
  pose proof (check_rel crc bs) as [S F]. destruct (check_checksum_rel crc bs) as [r m]. cbn [fst snd] in S, F. subst m.
  assert (K : forall w, bs = w ++ rest -> release_event_layout crc (p_checksum self) false o w -> (r = Ok tt <-> release_event_layout crc (p_checksum self) validate o w)).
  { intros w -> (h & hw & body & data & -> & H & G & D & _ & Eo). rewrite F. pose proof (event_covers _ _ _ H G) as C. split.
    - intros (h' & hw' & more & front & t & r2 & F1 & H' & F2 & T & L & Y).
      assert (h' = h) as -> by (rewrite <- app_assoc in F1; symmetry in F1; eapply header_det; [exact H'|exact H|exact F1]).
      exists h, hw, body, data. repeat (split; [assumption||reflexivity|]). split; [|exact Eo]. intros _.
      exists front, t, (skipn (length (front ++ t)) (hw ++ body)).
      assert (X : hw ++ body = (front ++ t) ++ skipn (length (front ++ t)) (hw ++ body)).
      { rewrite <- (firstn_skipn (length (front ++ t)) (hw ++ body)) at 1. f_equal. apply (f_equal (firstn (length (front ++ t)))) in F2.
        rewrite firstn_app in F2. replace (length (front ++ t) - length (hw ++ body))%nat with 0%nat in F2 by (rewrite (app_length front), T; lia).
        rewrite firstn_O, app_nil_r, (app_assoc front), (firstn_app (length (front ++ t)) (front ++ t) r2), firstn_all, Nat.sub_diag, firstn_O, app_nil_r in F2. exact F2. }
      rewrite <- app_assoc in X. auto.
    - intros (h' & hw' & body' & data' & Ew & H' & G' & D' & V & _). specialize (V B). destruct V as (front & t & more & Ef & T & L & Y).
      exists h', hw', (body' ++ rest), front, t, (more ++ rest). rewrite Ew, <- app_assoc. split; [reflexivity|]. split; [exact H'|].
      split; [rewrite app_assoc, <- Ew, Ef, <- !app_assoc; reflexivity|]. auto. }
  assert (W : forall w, release_event_layout crc (p_checksum self) validate o w -> release_event_layout crc (p_checksum self) false o w).
  { intros w (h & hw & body & data & -> & H & G & D & _ & Eo). exists h, hw, body, data. repeat (split; [assumption||reflexivity|]). split; [rewrite andb_false_r; discriminate|exact Eo]. }
  split.
  - destruct r as [[]|? |?|]; try discriminate. intros X. apply P in X. destruct X as (w & Eb & X). exists w. split; [exact Eb|]. apply (K w Eb X). reflexivity.
  - intros (w & Eb & X). rewrite (proj2 (K w Eb (W w X)) X). apply P. exists w. auto.
Qed.
Lemma accepts_skip_rel self : takes_exactly (skip_event_rel self) (fun _ w => release_skipped_layout w).
Proof.
  intros bs [] rest. unfold skip_event_rel, pbind, release_skipped_layout. split.
  - destruct (read_event_header bs) as [[h|? |?|] m1] eqn:E1; try discriminate. apply accepts_header in E1. destruct E1 as (hw & -> & H).
    destruct (read_len (data_len_rel h) m1) as [[body|? |?|] m2] eqn:E2; try discriminate. apply te_len in E2. destruct E2 as (w & -> & L & ->).
    intros [= <-]. exists (hw ++ body). rewrite app_assoc. split; [reflexivity|]. exists h, hw, body. split; [reflexivity|]. split; [exact H|]. apply (data_gives h hw); assumption.
  - intros (w & -> & h & hw & body & -> & H & G). apply (data_gives h hw _ H) in G.
    rewrite <- app_assoc. rewrite (proj2 (accepts_header (hw ++ body ++ rest) h (body ++ rest))) by eauto.
    rewrite (proj2 (te_len (data_len_rel h) (body ++ rest) body rest)) by (exists body; repeat split; exact G). reflexivity.
Qed.
Lemma accepts_checksum_rel crc self bs : checksum_event_rel crc self bs = Ok tt <-> p_checksum self = true /\ checked_layout crc bs.
Proof.
  unfold checksum_event_rel. destruct (p_checksum self); cbn [negb]; [|split; [discriminate|intros [X _]; discriminate X]].
  pose proof (check_rel crc bs) as [_ F].
  assert (E : fst (check_checksum_rel crc bs) = rbind (fst (read_event_header bs)) (fun header => rbind (fst (read_len (h_event_len header) bs)) (fun raw_data =>
    rbind (split_last4 raw_data) (fun p => let '(raw_data, checksum_data) := p in rbind (fst (read_le_u32 checksum_data)) (fun expected =>
    let actual := crc raw_data in if expected =? actual then Ok tt else Err (EChecksum expected actual)))))).
  { unfold check_checksum_rel, pbind, ppeek, plift. destruct (fst (read_event_header bs)) as [h|? |?|]; try reflexivity. cbn [rbind].
    destruct (fst (read_len (h_event_len h) bs)) as [s|? |?|]; try reflexivity. cbn [rbind]. destruct (split_last4 s) as [[a b]|? |?|]; try reflexivity. cbn [rbind].
    destruct (fst (read_le_u32 b)) as [x|? |?|]; try reflexivity. cbn [rbind]. cbv zeta. destruct (_ =? _); reflexivity. }
  change (_ = Ok tt <-> true = true /\ checked_layout crc bs) with (rbind (fst (read_event_header bs)) (fun header => rbind (fst (read_len (h_event_len header) bs)) (fun raw_data =>
    rbind (split_last4 raw_data) (fun p => let '(raw_data, checksum_data) := p in rbind (fst (read_le_u32 checksum_data)) (fun expected =>
    let actual := crc raw_data in if expected =? actual then Ok tt else Err (EChecksum expected actual))))) = Ok tt <-> true = true /\ checked_layout crc bs).
  rewrite <- E, F. tauto.
Qed.

(** ** Files *)
Lemma fde_rel_debug (msg : bytes) d r : read_fde_rel msg = (Ok d, r) <->
  exists st w1 hl w2 m own, msg = w1 ++ w2 ++ m /\ start_layout st w1 /\ byte1 hl w2 /\ nth_error m 14 = Some own /\
    exists table tail, m = table ++ tail /\ gives 8 (b2n own) 57 (N.of_nat (length table)) /\
      d = mk_fde (st_binlog_version st) (st_server_version st) (st_create_timestamp st) hl table (match tail with [] => 0 | b :: _ => b2n b end) /\
      r = skipn 1 tail.
Proof.
  unfold read_fde_rel. cbv zeta. unfold pbind at 1. split.
  - destruct (read_start_data msg) as [[st|e|w|] m1] eqn:E1; try discriminate. apply accepts_start in E1. destruct E1 as (w1 & -> & H1).
    unfold pbind at 1. destruct (read_u8 m1) as [[hl|e|w|] m2] eqn:E2; try discriminate. apply te_u8 in E2. destruct E2 as (w2 & -> & H2).
    unfold pbind at 1, bget. change (N.to_nat (event_type_code EtFormatDescription) - 1)%nat with 14%nat.
    destruct (nth_error m2 14) as [own|] eqn:En; [|discriminate]. cbv beta.
    assert (Gk : gives 8 (b2n own) 57 (rsub 8 (b2n own) 57)) by (apply gives_rsub; [apply b2n_lt|reflexivity|reflexivity]). set (k := rsub 8 (b2n own) 57) in *.
    unfold pbind at 1, premaining. intros E. exists st, w1, hl, w2, m2, own. split; [reflexivity|]. split; [exact H1|]. split; [exact H2|]. split; [exact En|].
    destruct (N.eqb_spec (blen m2) k) as [e|e].
    + unfold pbind, read_rest, pret in E. injection E as <- <-. exists m2, []. rewrite app_nil_r. unfold blen in e. rewrite e. auto.
    + unfold pbind at 1, split_to in E. destruct (N.ltb_spec (blen m2) k) as [L|L]; try discriminate.
      unfold pbind, read_u8, pret in E. destruct (skipn (N.to_nat k) m2) as [|b m3] eqn:Es; try discriminate. injection E as <- <-.
      exists (firstn (N.to_nat k) m2), (b :: m3). rewrite <- Es, firstn_skipn. split; [reflexivity|]. rewrite Es. split; [|auto].
      rewrite firstn_length. unfold blen in L. replace (N.of_nat (Nat.min (N.to_nat k) (length m2))) with k by lia. exact Gk.
  - intros (st & w1 & hl & w2 & m & own & -> & H1 & H2 & En & table & tail & Em & G & -> & ->). apply gives_rsub in G; [|apply b2n_lt|reflexivity].
    rewrite (proj2 (accepts_start (w1 ++ w2 ++ m) st (w2 ++ m))) by eauto. unfold pbind at 1.
    rewrite (proj2 (te_u8 (w2 ++ m) hl m)) by eauto. unfold pbind at 1, bget. change (N.to_nat (event_type_code EtFormatDescription) - 1)%nat with 14%nat.
    rewrite En. cbv beta. rewrite <- G. unfold pbind at 1, premaining. rewrite Em. unfold blen. rewrite app_length. destruct tail as [|b tail].
    + cbn [length]. rewrite Nat.add_0_r, N.eqb_refl. unfold pbind, read_rest, pret. rewrite app_nil_r. reflexivity.
    + destruct (N.eqb_spec (N.of_nat (length table + length (b :: tail))) (N.of_nat (length table))) as [X|X]; [cbn [length] in X; lia|].
      unfold pbind at 1, split_to, blen. rewrite app_length. destruct (N.ltb_spec (N.of_nat (length table + length (b :: tail))) (N.of_nat (length table))); [lia|].
      rewrite Nat2N.id, firstn_app, skipn_app, firstn_all, skipn_all, Nat.sub_diag, firstn_O, app_nil_r. reflexivity.
Qed.
Lemma open_event_rel bs o rest : from_fde_bytes_rel bs = (Ok o, rest) <-> exists h w, bs = w ++ rest /\ release_first_event_layout h o w.
Proof.
  unfold from_fde_bytes_rel, release_first_event_layout. unfold pbind at 1. split.
  - destruct (read_event_header bs) as [[h|e|w|] m1] eqn:E1; try discriminate. apply accepts_header in E1. destruct E1 as (hw & -> & H1).
    unfold pbind at 1. destruct (read_len _ m1) as [[body|e|w|] m2] eqn:E2; try discriminate. apply te_len in E2. destruct E2 as (w & -> & L2 & ->).
    destruct (read_fde_rel body) as [r left] eqn:E3. unfold pbind at 1, plift. destruct r as [d|e|w|]; try discriminate. intros E.
    apply fde_rel_debug in E3. destruct E3 as (st & w1 & hl & w2 & m & own & -> & S & Hl & En & table & tail & -> & G & -> & ->).
    assert (m2 = rest).
    { revert E. clear. unfold pbind. repeat match goal with |- context [if ?b then _ else _] => destruct b end; try discriminate;
        cbn; try (destruct (fst _)); cbn; try discriminate; intros [= _ X]; exact X. }
    subst m2. apply tail_read in E; [|destruct tail; [left; auto|right; eauto]].
    exists h, (hw ++ w1 ++ w2 ++ table ++ tail). split; [rewrite <- !app_assoc; reflexivity|].
    exists st, hl, table, tail, own, hw, (w1 ++ w2 ++ table ++ tail). split; [reflexivity|]. split; [exact H1|]. split; [apply (data_gives h hw); assumption|].
    split; [constructor; [exact S|]; constructor; [exact Hl|]; constructor; [reflexivity|]; apply fields_one; reflexivity|]. split; [exact En|]. split; [exact G|exact E].
  - intros (h & w & -> & st & hl & table & tail & own & hw & body & -> & H1 & G1 & F & N14 & G & S).
    rewrite <- app_assoc, (proj2 (accepts_header (hw ++ body ++ rest) h (body ++ rest))) by eauto. apply (data_gives h hw _ H1) in G1. unfold pbind at 1.
    rewrite (proj2 (te_len (data_len_rel h) (body ++ rest) body rest)) by (exists body; repeat split; exact G1).
    apply fields_cons_inv in F. destruct F as (w1 & r1 & -> & F1 & F). apply fields_cons_inv in F. destruct F as (w2 & r2 & -> & F2 & F).
    apply fields_cons_inv in F. destruct F as (w3 & r3 & -> & -> & F). rewrite fields_one in F. unfold exactly in F. subst r3.
    set (d := mk_fde (st_binlog_version st) (st_server_version st) (st_create_timestamp st) hl table (match tail with [] => 0 | b :: _ => b2n b end)).
    assert (E3 : read_fde_rel (w1 ++ w2 ++ table ++ tail) = (Ok d, skipn 1 tail)) by (apply fde_rel_debug; exists st, w1, hl, w2, (table ++ tail), own; repeat (split; [assumption||reflexivity|]); exists table, tail; auto).
    rewrite E3. apply (tail_read d tail o rest); [destruct tail; [left; auto|right; eexists _, _; split; reflexivity]|exact S].
Qed.
Lemma accepts_first_rel : takes_exactly from_fde_bytes_rel (fun o w => exists h, release_first_event_layout h o w).
Proof.
  intros bs o rest. rewrite open_event_rel. split; [intros (h & w & A & B); eauto|intros (w & A & h & B); eauto].
Qed.
Lemma first_header h o w : release_first_event_layout h o w -> exists hw body, w = hw ++ body /\ header_layout h hw.
Proof. intros (? & ? & ? & ? & ? & hw & body & E & H & _). eauto. Qed.
Lemma accepts_open_rel : takes_exactly from_binlog_file_rel release_opened_layout.
Proof.
  intros bs p rest. unfold from_binlog_file_rel, release_opened_layout. split.
  - intros E. unfold pbind at 1 in E. destruct (read_binlog_version bs) as [[v|e|x|] m] eqn:E1; try discriminate.
    apply accepts_version in E1. destruct E1 as (-> & h & hw & more & -> & H & V). destruct v; try discriminate. cbn in V.
    unfold pbind at 1 in E. destruct (from_fde_bytes_rel (hw ++ more)) as [[[p' sum]|e|x|] m] eqn:E2; try discriminate.
    injection E as -> ->. apply open_event_rel in E2. destruct E2 as (h' & w & E2 & F).
    assert (h' = h).
    { destruct (first_header _ _ _ F) as (hw' & r & -> & H'). rewrite <- app_assoc in E2. symmetry. eapply header_det; [exact H|exact H'|exact E2]. }
    subst h'. exists ([xfe; x62; x69; x6e] ++ w). rewrite E2. split; [rewrite app_assoc; reflexivity|].
    exists h, sum. split; [exact V|]. constructor; [reflexivity|]. apply fields_one. exact F.
  - intros (w & -> & h & sum & V & F). apply fields_cons_inv in F. destruct F as (w1 & w2 & -> & -> & F). rewrite fields_one in F.
    unfold pbind at 1. assert (E1 : read_binlog_version (([xfe; x62; x69; x6e] ++ w2) ++ rest) = (Ok V4, w2 ++ rest)).
    { apply accepts_version. rewrite <- app_assoc. split; [reflexivity|]. destruct (first_header _ _ _ F) as (hw & r & -> & H).
      exists h, hw, (r ++ rest). rewrite <- app_assoc. split; [reflexivity|]. split; [exact H|exact V]. }
    rewrite E1. clear E1. unfold pbind at 1.
    assert (E2 : from_fde_bytes_rel (w2 ++ rest) = (Ok (p, sum), rest)) by (apply open_event_rel; eauto). rewrite E2. reflexivity.
Qed.
Lemma accepts_file_rel crc validate n :
  takes_exactly (p <- from_binlog_file_rel ;; prepeat n (parse_event_rel crc p validate)) (release_file_layout crc validate n).
Proof.
  eapply te_bind with (F := fun p es w => length es = n /\ fields (map (release_event_layout crc (p_checksum p) validate) es) w); [exact accepts_open_rel| |].
  - intros p w _. apply te_repeat. apply accepts_event_rel.
  - intros es w. unfold release_file_layout. split.
    + intros (p & L & F). apply fields_cons_inv in F. destruct F as (w1 & w2 & -> & H & F). exists p, w1, w2. auto.
    + intros (p & w1 & w2 & -> & H & L & F). exists p. split; [exact L|]. constructor; assumption.
Qed.
