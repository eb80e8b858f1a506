(** C70: damaged events.  What damage is: Spec/Damage.v; the checksum is CRC-32 as in Spec/BinlogSpec.v. *)
From Coq Require Import Strings.String.
From Verif Require Import Model.Base Model.Auth Model.Event Model.Conn Model.Stream Spec.Wire Spec.Framing Spec.Session
  Spec.BinlogSpec Spec.StreamSpec Spec.Damage Proofs.DamageProofs.
Open Scope N_scope.

(** the error says what is wrong: a type that does not exist, or a checksum that does not match *)
Definition reported_damage (bs' : bytes) (err : error) : Prop :=
  (err = EConstraint /\ exists b, nth_error bs' 4 = Some b /\ 39 <= b2n b) \/
  (exists expected actual, expected <> actual /\ err = EChecksum expected actual).

(** An event of a log with checksums in which at most 32 consecutive bits were changed in any way,
    or any two bits flipped, in the header, the body or the checksum itself, but not in its length
    field, is never delivered: reading it is an error, and nothing is taken from the input. *)
Theorem C70_noticed : forall self e bs' rest, p_checksum self = true -> log_event_ok true e ->
  burst 32 (stored crc32 true e) bs' \/ two_flips (stored crc32 true e) bs' ->
  length_field bs' = length_field (stored crc32 true e) ->
  exists err, parse_event crc32 self true (bs' ++ rest) = (Err err, bs' ++ rest) /\ reported_damage bs' err.
Proof. exact noticed. Qed.
Print Assumptions C70_noticed.
(** so does checking the checksum without reading the event *)
Theorem C70_noticed_alone : forall self e bs' rest, p_checksum self = true -> log_event_ok true e ->
  burst 32 (stored crc32 true e) bs' \/ two_flips (stored crc32 true e) bs' ->
  length_field bs' = length_field (stored crc32 true e) ->
  exists err, checksum_event crc32 self (bs' ++ rest) = Err err /\ reported_damage bs' err.
Proof. exact noticed_alone. Qed.
Print Assumptions C70_noticed_alone.
(** in a log: all events before the damaged one, then the error *)
Theorem C70_log : forall self es e bs' rest, p_checksum self = true -> Forall (log_event_ok true) es -> log_event_ok true e ->
  burst 32 (stored crc32 true e) bs' \/ two_flips (stored crc32 true e) bs' ->
  length_field bs' = length_field (stored crc32 true e) ->
  prepeat (length es) (parse_event crc32 self true) (concat (map (stored crc32 true) es) ++ bs' ++ rest) =
    (Ok (map (parsed true) es), bs' ++ rest) /\
  forall n, exists err, prepeat (length es + S n) (parse_event crc32 self true) (concat (map (stored crc32 true) es) ++ bs' ++ rest) =
    (Err err, bs' ++ rest) /\ reported_damage bs' err.
Proof. exact noticed_log. Qed.
Print Assumptions C70_log.
(** in a stream that validates checksums: the same *)
Theorem C70_stream : forall s es e bs' d c, s_completed s = false -> p_checksum (s_pv4 s) = true -> s_validate s = true ->
  Forall (log_event_ok true) es -> log_event_ok true e ->
  burst 32 (stored crc32 true e) bs' \/ two_flips (stored crc32 true e) bs' ->
  length_field bs' = length_field (stored crc32 true e) ->
  awaits c (map (event_message crc32 true) es ++ [x00 :: bs']) d ->
  exists err c', io_pulls (next_event crc32 s) (S (length (reported true es))) c =
    (returned (reported true es) ++ [Err err], c') /\ reported_damage bs' err.
Proof. exact noticed_stream. Qed.
Print Assumptions C70_stream.

(** *** Findings and limits *)
Lemma burst_of k at_ bs bs' : bs' <> bs -> length bs' = length bs ->
  forallb (fun i => match nth_error (bits bs) i, nth_error (bits bs') i with
                    | Some x, Some y => Bool.eqb x y || ((at_ <=? i)%nat && (i <? at_ + k)%nat)
                    | _, _ => false
                    end) (seq 0 (length (bits bs))) = true -> length (bits bs') = length (bits bs) ->
  burst k bs bs'.
Proof.
  intros Hn Hl H Hb. split; [exact Hn|]. split; [exact Hl|]. exists at_. intros i Hi. unfold flipped in Hi.
  rewrite forallb_forall in H. destruct (Nat.lt_ge_cases i (length (bits bs))) as [L|L].
  - specialize (H i). rewrite in_seq in H. specialize (H (conj (Nat.le_0_l i) L)).
    destruct (nth_error (bits bs) i) as [x|], (nth_error (bits bs') i) as [y|]; try discriminate.
    apply orb_true_iff in H as [H|H]; [apply eqb_prop in H; subst; contradiction|].
    apply andb_true_iff in H as [H1 H2]. apply Nat.leb_le in H1. apply Nat.ltb_lt in H2. split; assumption.
  - exfalso. apply Hi. rewrite (proj2 (nth_error_None _ _) L). symmetry. apply nth_error_None. rewrite Hb. exact L.
Qed.
(** Finding: where the checksum is looked for depends on the length field, which it is to protect.
    A change of six bits there can turn an event into another one that is accepted. *)
Theorem C70_length_refuted : exists e bs' r rest, log_event_ok true e /\ burst 6 (stored crc32 true e) bs' /\
  parse_event crc32 (mk_parser [] true) true bs' = (Ok (Some r), rest) /\
  parsed true e <> Some r /\ rest <> [].
Proof.
  exists (mk_log_event 1 16 2 300 0 (wle 8 77 ++ wle 4 194451714)).
  exists (header_bytes 1 16 2 31 300 0 ++ wle 8 77 ++ wle 4 194451714 ++ [x9e; xb2; xce; xe5]).
  exists (mk_event KXid (mk_header 1 EtXid 2 31 300 0) (wle 8 77)), [x9e; xb2; xce; xe5].
  split; [repeat split|]. split; [apply (burst_of 6 72); vm_compute; (reflexivity || discriminate)|].
  split; [vm_compute; reflexivity|]. split; vm_compute; discriminate.
Qed.
Print Assumptions C70_length_refuted.
(** 32 is as far as it goes: a change that spans 33 bits can be accepted *)
Theorem C70_longer_refuted : exists e e' : log_event, log_event_ok true e /\ log_event_ok true e' /\
  burst 33 (stored crc32 true e) (stored crc32 true e') /\
  length_field (stored crc32 true e') = length_field (stored crc32 true e) /\
  crc32 (event_front true e') = crc32 (event_front true e) /\ parsed true e' <> parsed true e /\
  parse_event crc32 (mk_parser [] true) true (stored crc32 true e') = (Ok (parsed true e'), []).
Proof.
  exists (mk_log_event 1 16 2 300 0 (wle 8 77)), (mk_log_event 1 16 2 300 0 (wle 8 (N.lxor 77 0x1DB710641))).
  split; [repeat split|]. split; [repeat split|]. split; [apply (burst_of 33 152); vm_compute; (reflexivity || discriminate)|].
  split; [vm_compute; reflexivity|]. split; [vm_compute; reflexivity|]. split; [vm_compute; discriminate|].
  vm_compute. reflexivity.
Qed.
Print Assumptions C70_longer_refuted.

(** a changed byte in the body, a changed type, and two bits flipped far apart *)
Example C70_example :
  let e := mk_log_event 1 16 2 300 0 (wle 8 77) in
  let body := header_bytes 1 16 2 31 300 0 ++ wle 8 76 ++ wle 4 (crc32 (event_front true e)) in
  let ty := header_bytes 1 48 2 31 300 0 ++ wle 8 77 ++ wle 4 (crc32 (event_front true e)) in
  log_event_ok true e /\ burst 32 (stored crc32 true e) body /\ burst 32 (stored crc32 true e) ty /\
  length_field body = length_field (stored crc32 true e) /\ length_field ty = length_field (stored crc32 true e) /\
  fst (parse_event crc32 (mk_parser [] true) true body) =
    Err (EChecksum (crc32 (event_front true e)) (crc32 (header_bytes 1 16 2 31 300 0 ++ wle 8 76))) /\
  fst (parse_event crc32 (mk_parser [] true) true ty) = Err EConstraint.
Proof.
  split; [repeat split|]. split; [apply (burst_of 32 152); vm_compute; (reflexivity || discriminate)|].
  split; [apply (burst_of 32 32); vm_compute; (reflexivity || discriminate)|].
  split; [vm_compute; reflexivity|]. split; [vm_compute; reflexivity|]. split; vm_compute; reflexivity.
Qed.
Example C70_example_two :
  let e := mk_log_event 0 16 2 300 0 (wle 8 77) in
  let bs' := header_bytes 1 16 2 31 300 0 ++ wle 8 77 ++ wle 4 (N.lxor (crc32 (event_front true e)) (2 ^ 31)) in
  two_flips (stored crc32 true e) bs' /\ length_field bs' = length_field (stored crc32 true e) /\
  (exists k, fst (parse_event crc32 (mk_parser [] true) true bs') = Err (EChecksum (N.lxor (crc32 (event_front true e)) (2 ^ 31)) k)).
Proof.
  intros e bs'.
  split; [|split; [vm_compute; reflexivity|eexists; vm_compute; reflexivity]].
  split; [vm_compute; reflexivity|]. exists 0%nat, 247%nat. split; [repeat constructor|]. split; [reflexivity|].
  assert (forallb (fun i => match nth_error (bits (stored crc32 true e)) i, nth_error (bits bs') i with
    | Some x, Some y => Bool.eqb (negb (Bool.eqb x y)) ((i =? 0)%nat || (i =? 247)%nat) | _, _ => false end) (seq 0 248) = true) as H
    by (vm_compute; reflexivity).
  assert (length (bits (stored crc32 true e)) = 248%nat) as L1 by (vm_compute; reflexivity).
  assert (length (bits bs') = 248%nat) as L2 by (vm_compute; reflexivity).
  intros k. unfold flipped. rewrite forallb_forall in H. destruct (Nat.lt_ge_cases k 248) as [L|L].
  - specialize (H k). rewrite in_seq in H. specialize (H (conj (Nat.le_0_l k) L)).
    destruct (nth_error (bits (stored crc32 true e)) k) as [x|], (nth_error (bits bs') k) as [y|]; try discriminate.
    apply eqb_prop in H. destruct (Nat.eqb_spec k 0), (Nat.eqb_spec k 247); destruct x, y; try discriminate H; split; intros X; try tauto; try congruence; try (intros Y; discriminate Y); destruct X; congruence.
  - rewrite (proj2 (nth_error_None (bits (stored crc32 true e)) k)) by (rewrite L1; exact L).
    rewrite (proj2 (nth_error_None (bits bs') k)) by (rewrite L2; exact L).
    split; [intros X; contradiction|intros [->| ->]; repeat apply le_S_n in L; inversion L].
Qed.
