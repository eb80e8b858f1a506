(** * Proofs for C70: damaged events *)
From Coq Require Import Lia ZifyN ZifyNat Zify.
From Verif Require Import Model.Base Model.BytesParser Model.Event Model.Conn Model.Stream Spec.Wire Spec.Framing Spec.Session
  Spec.BinlogSpec Spec.StreamSpec Spec.Damage
  Proofs.BaseLemmas Proofs.WireLemmas Proofs.EventProofs Proofs.StreamProofs Proofs.CrcProofs.
Open Scope N_scope.

Definition damage (bs bs' : bytes) : Prop := burst 32 bs bs' \/ two_flips bs bs'.
Lemma damage_length bs bs' : damage bs bs' -> length bs' = length bs.
Proof. intros [(_ & H & _)|(H & _)]; exact H. Qed.
Lemma length_field_header ts code sid len next flags r : length_field (header_bytes ts code sid len next flags ++ r) = wle 4 len.
Proof. reflexivity. Qed.
Lemma length_field_stored crc sum e : length_field (stored crc sum e) = wle 4 (event_size sum e).
Proof. unfold stored, event_front. rewrite <- !app_assoc. apply length_field_header. Qed.
Lemma stored_length crc e : N.of_nat (length (stored crc true e)) = event_size true e.
Proof.
  unfold stored, event_front, event_size. rewrite !app_length, header_length, wle_length. lia.
Qed.

(** what a damaged event looks like *)
Lemma damaged_form e bs' : log_event_ok true e -> damage (stored crc32 true e) bs' ->
  length_field bs' = length_field (stored crc32 true e) ->
  (exists b, nth_error bs' 4 = Some b /\ 39 <= b2n b /\ forall rest, fst (read_event_header (bs' ++ rest)) = Err EConstraint) \/
  (exists e' t, log_event_ok true e' /\ bs' = event_front true e' ++ wle 4 t /\ t < 2 ^ 32 /\ t <> crc32 (event_front true e')).
Proof.
  intros He Hd Hf. pose proof (damage_length _ _ Hd) as Hl. pose proof (stored_length crc32 e) as Hs.
  assert (23 <= event_size true e) as Hz by (unfold event_size; lia).
  destruct (header_surj bs') as (ts & code & sid & len & next & flags & r & Hok & E); [lia|].
  rewrite E, length_field_header, length_field_stored in Hf.
  assert (len = event_size true e) as El.
  { destruct He as (_ & _ & _ & He & _). destruct Hok as (_ & _ & _ & Hlen & _).
    rewrite <- (wle_val 4 len Hlen), <- (wle_val 4 (event_size true e) He), Hf. reflexivity. }
  assert (length bs' = (19 + length r)%nat) as Hr by (rewrite E, app_length, header_length; reflexivity).
  destruct (N.ltb_spec code 39) as [Hc|Hc].
  - right. destruct (split_len (length r - 4) r) as (body & tr & Er & Hb); [lia|].
    assert (length tr = 4%nat) as Ht by (rewrite Er, app_length in Hr; rewrite Er, app_length in Hb; lia).
    destruct (le_repr 4 tr) as (t & z & Bt & Et & Lz); [lia|]. destruct z; [|cbn [length] in Lz; lia]. rewrite app_nil_r in Et.
    exists (mk_log_event ts code sid next flags body), t.
    assert (event_size true (mk_log_event ts code sid next flags body) = len) as Ez.
    { unfold event_size. cbn [le_body]. rewrite Er, app_length in Hr. lia. }
    assert (bs' = event_front true (mk_log_event ts code sid next flags body) ++ wle 4 t) as Eb.
    { unfold event_front. rewrite Ez. cbn [le_timestamp le_code le_server_id le_next_pos le_flags le_body].
      rewrite E, Er, Et, <- app_assoc. reflexivity. }
    destruct Hok as (K1 & K2 & K3 & K4 & K5 & K6).
    split; [unfold log_event_ok; rewrite Ez; cbn [le_timestamp le_code le_server_id le_next_pos le_flags]; auto 10|].
    split; [exact Eb|]. split; [exact Bt|]. intros X.
    apply (run_trailer _ _ Bt) in X. rewrite <- Eb in X.
    apply (damage_run _ _ Hd). rewrite X. unfold stored. apply run_trailer; [apply crc32_lt|reflexivity].
  - left. exists (n2b (code mod 256)). rewrite E. split; [reflexivity|].
    destruct Hok as (K1 & K2 & K3 & K4 & K5 & K6). change (2 ^ 8) with 256 in K2.
    split; [rewrite b2n_n2b by (apply N.mod_lt; lia); rewrite (N.mod_small code) by exact K2; lia|].
    intros rest. rewrite <- app_assoc, header_read by (repeat split; assumption).
    destruct (type_with_code code) eqn:Et; [|reflexivity]. apply type_with_code_inv in Et. lia.
Qed.

(** an error that names the damage *)
Definition blamed (bs' : bytes) (err : error) : Prop :=
  (err = EConstraint /\ exists b, nth_error bs' 4 = Some b /\ 39 <= b2n b) \/
  (exists expected actual, expected <> actual /\ err = EChecksum expected actual).

Lemma noticed self e bs' rest : p_checksum self = true -> log_event_ok true e -> damage (stored crc32 true e) bs' ->
  length_field bs' = length_field (stored crc32 true e) ->
  exists err, parse_event crc32 self true (bs' ++ rest) = (Err err, bs' ++ rest) /\ blamed bs' err.
Proof.
  intros Hs He Hd Hf. destruct (damaged_form e bs' He Hd Hf) as [(b & Hb & Hc & Hh)|(e' & t & He' & -> & Ht & Hne)].
  - exists EConstraint. split; [|left; eauto].
    unfold parse_event. rewrite Hs. cbn [andb]. unfold check_checksum, pbind at 1. unfold pbind at 1, ppeek.
    rewrite Hh. reflexivity.
  - rewrite <- app_assoc. eexists. split; [apply parse_bad_checksum; assumption|]. right. eauto.
Qed.
Lemma noticed_alone self e bs' rest : p_checksum self = true -> log_event_ok true e -> damage (stored crc32 true e) bs' ->
  length_field bs' = length_field (stored crc32 true e) ->
  exists err, checksum_event crc32 self (bs' ++ rest) = Err err /\ blamed bs' err.
Proof.
  intros Hs He Hd Hf. destruct (damaged_form e bs' He Hd Hf) as [(b & Hb & Hc & Hh)|(e' & t & He' & -> & Ht & Hne)].
  - exists EConstraint. split; [|left; eauto]. unfold checksum_event. rewrite Hs, Hh. reflexivity.
  - rewrite <- app_assoc. eexists. split; [rewrite checksum_event_all by assumption; rewrite Hs|right; eauto].
    apply N.eqb_neq in Hne. rewrite Hne. reflexivity.
Qed.
Lemma prepeat_app {A} (p : parser A) m n bs l r : prepeat m p bs = (Ok l, r) ->
  prepeat (m + n) p bs = let '(x, r') := prepeat n p r in (rmap (app l) x, r').
Proof.
  revert bs l. induction m as [|m IH]; intros bs l H.
  - injection H as <- <-. cbn [Nat.add]. destruct (prepeat n p bs) as [[x| | |] r']; reflexivity.
  - cbn [prepeat Nat.add] in *. apply pbind_inv in H as (a & r1 & Ha & H). apply pbind_inv in H as (l1 & r2 & Hl & H).
    injection H as <- <-. unfold pbind at 1. rewrite Ha. unfold pbind. rewrite (IH _ _ Hl).
    destruct (prepeat n p r2) as [[x| | |] r']; reflexivity.
Qed.
Lemma noticed_log self es e bs' rest : p_checksum self = true -> Forall (log_event_ok true) es -> log_event_ok true e ->
  damage (stored crc32 true e) bs' -> length_field bs' = length_field (stored crc32 true e) ->
  prepeat (length es) (parse_event crc32 self true) (concat (map (stored crc32 true) es) ++ bs' ++ rest) =
    (Ok (map (parsed true) es), bs' ++ rest) /\
  forall n, exists err, prepeat (length es + S n) (parse_event crc32 self true) (concat (map (stored crc32 true) es) ++ bs' ++ rest) =
    (Err err, bs' ++ rest) /\ blamed bs' err.
Proof.
  intros Hs Hes He Hd Hf.
  assert (prepeat (length es) (parse_event crc32 self true) (concat (map (stored crc32 true) es) ++ bs' ++ rest) =
    (Ok (map (parsed true) es), bs' ++ rest)) as P.
  { pose proof (parse_stored_all crc32 self true es (bs' ++ rest) crc32_lt) as P. rewrite Hs in P. apply P. exact Hes. }
  split; [exact P|]. intros n. destruct (noticed self e bs' rest Hs He Hd Hf) as (err & E & B). exists err.
  split; [|exact B]. rewrite (prepeat_app _ _ _ _ _ _ P). cbn [prepeat]. unfold pbind. rewrite E. reflexivity.
Qed.
Lemma noticed_stream s es e bs' d c : s_completed s = false -> p_checksum (s_pv4 s) = true -> s_validate s = true ->
  Forall (log_event_ok true) es -> log_event_ok true e ->
  damage (stored crc32 true e) bs' -> length_field bs' = length_field (stored crc32 true e) ->
  awaits c (map (event_message crc32 true) es ++ [x00 :: bs']) d ->
  exists err c', io_pulls (next_event crc32 s) (S (length (reported true es))) c =
    (returned (reported true es) ++ [Err err], c') /\ blamed bs' err.
Proof.
  intros Ho Hs Hv Hes He Hd Hf Ha. destruct (noticed (s_pv4 s) e bs' [] Hs He Hd Hf) as (err & E & B). rewrite app_nil_r in E.
  exists err. rewrite <- Hs in Hes, Ha at 1.
  pose proof (stream_break crc32 s es _ d c err crc32_lt Ho Hes Ha) as H.
  cbv zeta in H. rewrite Hs in H. destruct H as (c' & H); [|exists c'; split; [exact H|exact B]].
  right. split; [reflexivity|]. rewrite Hv, E. reflexivity.
Qed.
