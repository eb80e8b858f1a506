(** * Proofs: which files are opened, and what is read from them *)
From Coq Require Import Lia.
From Verif Require Import Model.Base Model.BytesParser Model.Event Spec.Nums Spec.Accepts Spec.AcceptsEvents Spec.AcceptsFile
  Proofs.BaseLemmas Proofs.AcceptsProofs Proofs.AcceptsRows Proofs.AcceptsEvents Proofs.AcceptsBodies.
Open Scope N_scope.

Lemma start_len st w : start_layout st w -> length w = 56%nat.
Proof.
  intros [_ H]. repeat (apply fields_cons_inv in H; let X := fresh "X" in destruct H as (? & ? & -> & X & H)).
  apply fields_nil_inv in H. subst. destruct X as [X _], X0 as [X0 _], X1 as [X1 _]. rewrite !app_length. cbn [length]. lia.
Qed.
Lemma header_len h w : header_layout h w -> length w = 19%nat.
Proof.
  intros H. unfold header_layout in H. repeat (apply fields_cons_inv in H; let X := fresh "X" in destruct H as (? & ? & -> & X & H)).
  apply fields_nil_inv in H. subst. destruct X4 as (n & [X4 _] & _). unfold byte1, is_le in *. rewrite !app_length. cbn [length]. lia.
Qed.
Lemma skipn_skipn_add {A} a b (l : list A) : skipn b (skipn a l) = skipn (a + b) l.
Proof. revert l. induction a as [|a IH]; intros l; [reflexivity|]. destruct l; [apply skipn_nil|apply IH]. Qed.
(** what is left after the format description *)
Lemma fde_left msg d r : read_fde msg = (Ok d, r) -> r = skipn (58 + length (fde_post_header_lengths d)) msg.
Proof.
  unfold read_fde. intros E. unfold pbind at 1 in E. destruct (read_start_data msg) as [[st|e|w|] m1] eqn:E1; try discriminate.
  apply accepts_start in E1. destruct E1 as (w1 & -> & H1). apply start_len in H1.
  unfold pbind at 1 in E. destruct (read_u8 m1) as [[hl|e|w|] m2] eqn:E2; try discriminate.
  apply te_u8 in E2. destruct E2 as (w2 & -> & [H2 _]).
  assert (K : forall n, skipn (58 + n) (w1 ++ w2 ++ m2) = skipn (1 + n) m2).
  { intros n. rewrite app_assoc, skipn_app, skipn_all2 by (rewrite app_length; lia). cbn [app]. f_equal. rewrite app_length. lia. }
  rewrite K. clear K. unfold pbind at 1 in E. destruct (bget m2 _) as [own|e|w|]; try discriminate.
  unfold pbind at 1, plift in E. destruct (csub (b2n own) 57) as [k|e|w|]; try discriminate.
  unfold pbind at 1, premaining in E. destruct (N.eqb_spec (blen m2) k).
  - unfold pbind, read_rest, pret in E. injection E as <- <-. cbn [fde_post_header_lengths]. symmetry. apply skipn_all2. lia.
  - unfold pbind at 1, split_to in E. destruct (N.ltb_spec (blen m2) k); try discriminate.
    unfold pbind, read_u8, pret in E. destruct (skipn (N.to_nat k) m2) as [|b m3] eqn:Es; try discriminate.
    injection E as <- <-. cbn [fde_post_header_lengths]. rewrite firstn_length. unfold blen in *.
    replace (1 + Nat.min (N.to_nat k) (length m2))%nat with (N.to_nat k + 1)%nat by lia.
    rewrite <- skipn_skipn_add, Es. reflexivity.
Qed.

Lemma body_left st header_len table tail w :
  fields [start_layout st; byte1 header_len; exactly table; exactly tail] w -> skipn (58 + length table) w = skipn 1 tail.
Proof.
  intros H. apply fields_cons_inv in H. destruct H as (w1 & r1 & -> & H1 & H). apply start_len in H1.
  apply fields_cons_inv in H. destruct H as (w2 & r2 & -> & [H2 _] & H).
  apply fields_cons_inv in H. destruct H as (w3 & r3 & -> & -> & H). rewrite fields_one in H. unfold exactly in H. subst r3.
  rewrite !app_assoc, skipn_app, skipn_all2 by (rewrite !app_length; lia). cbn [app]. f_equal. rewrite !app_length. lia.
Qed.
(** the kind of checksum and the checksum *)
Definition sum_of (table tail : bytes) (o : parser_v4 * option N) : Prop :=
  p_post_header_lengths (fst o) = x00 :: table /\
  match tail with
  | x01 :: tail => p_checksum (fst o) = true /\ exists sum w1 more, tail = w1 ++ more /\ is_le 4 sum w1 /\ snd o = Some sum
  | _ => p_checksum (fst o) = false /\ snd o = None
  end.
Lemma tail_read d tail o (rest : bytes) :
  (tail = [] /\ fde_checksum_flag d = 0) \/ (exists b more, tail = b :: more /\ fde_checksum_flag d = b2n b) ->
  ((crc32 <- (if fde_checksum_flag d =? 1
            then if blen (skipn 1 tail) <? 4 then pfail EBinlogEvent
                 else c <- plift (fst (read_le_u32 (skipn 1 tail))) ;; pret (Some c)
            else pret None) ;;
   pret (from_fde d, crc32)) rest = (Ok o, rest) <-> sum_of (fde_post_header_lengths d) tail o).
Proof.
  intros [[-> F]|(b & more & -> & F)]; unfold sum_of, from_fde, post_header_lengths_from_raw; rewrite F.
  - cbn. destruct o as [[l c] s]. cbn. split; [intros [= <- <- <-]; auto|]. intros (-> & -> & ->). reflexivity.
  - cbn [skipn]. destruct (N.eqb_spec (b2n b) 1) as [e|e].
    + assert (b = x01) by (apply b2n_inj; rewrite e; reflexivity). subst b. unfold pbind at 1.
      destruct (N.ltb_spec (blen more) 4) as [L|L].
      { split; [discriminate|]. intros (_ & _ & sum & w1 & m & -> & [X _] & _). unfold blen in L. rewrite app_length in L. lia. }
      destruct (read_le_u32 more) as [[c|x|x|] m1] eqn:E.
      2-4: exfalso; assert (X : read_le_u32 more = (Ok (le_val (firstn 4 more)), skipn 4 more))
            by (apply te_u32; exists (firstn 4 more); rewrite firstn_skipn; split; [reflexivity|]; split; [rewrite firstn_length; unfold blen in L; lia|reflexivity]);
            congruence.
      apply te_u32 in E. destruct E as (w1 & -> & X). destruct o as [[l c'] s]. cbn. split.
      * intros [= <- <- <-]. split; [reflexivity|]. split; [reflexivity|]. exists c, w1, m1. auto.
      * intros (-> & -> & sum & w2 & m & Y & [Z1 Z2] & ->). destruct X as [X1 X2]. apply app_eq_app_len in Y; [|lia]. destruct Y as [<- _].
        subst. reflexivity.
    + assert (Q : match b :: more with
        | x01 :: tail => p_checksum (fst o) = true /\ exists sum w1 more, tail = w1 ++ more /\ is_le 4 sum w1 /\ snd o = Some sum
        | _ => p_checksum (fst o) = false /\ snd o = None end <-> p_checksum (fst o) = false /\ snd o = None)
        by (destruct b; try reflexivity; contradiction e; reflexivity).
      rewrite Q. destruct o as [[l c] s]. cbn. split; [intros [= <- <- <-]; auto|]. intros (-> & -> & ->). reflexivity.
Qed.
Lemma open_event bs o rest : from_fde_bytes bs = (Ok o, rest) <-> exists h w, bs = w ++ rest /\ first_event_layout h o w.
Proof.
  unfold from_fde_bytes, first_event_layout. split.
  - intros E. unfold pbind at 1 in E. destruct (read_event_header bs) as [[h|e|w|] m1] eqn:E1; try discriminate.
    apply accepts_header in E1. destruct E1 as (hw & -> & H1).
    unfold pbind at 1, plift, data_len, csub in E. destruct (N.ltb_spec (h_event_len h) 19) as [L|L]; try discriminate.
    unfold pbind at 1 in E. destruct (read_len _ m1) as [[body|e|w|] m2] eqn:E2; try discriminate.
    apply te_len in E2. destruct E2 as (w & -> & L2 & ->).
    destruct (read_fde body) as [r left] eqn:E3. unfold pbind at 1, plift in E. destruct r as [d|e|w|]; try discriminate.
    pose proof (fde_left _ _ _ E3) as Lf. assert (E3' : fst (read_fde body) = Ok d) by (rewrite E3; reflexivity).
    apply accepts_fde in E3'. destruct E3' as (tail & own & F & N14 & Own & Fl). rewrite (body_left _ _ _ _ _ F) in Lf. subst left.
    assert (m2 = rest).
    { revert E. clear. unfold pbind. repeat match goal with |- context [if ?b then _ else _] => destruct b end; try discriminate;
        cbn; try (destruct (fst _)); cbn; try discriminate; intros [= _ X]; exact X. }
    subst m2. apply (tail_read d tail o rest Fl) in E.
    exists h, (hw ++ body). rewrite app_assoc. split; [reflexivity|].
    eexists _, _, _, tail, own. split; [constructor; [exact H1|exact F]|]. split; [apply header_len in H1; rewrite app_length; lia|].
    split; [exact N14|]. split; [exact Own|exact E].
  - intros (h & w & -> & start & hlen & table & tail & own & F & L & N14 & Own & S).
    apply fields_cons_inv in F. destruct F as (hw & body & -> & H1 & F). pose proof (header_len _ _ H1) as Lh.
    unfold pbind at 1. rewrite <- app_assoc. assert (E1 : read_event_header (hw ++ body ++ rest) = (Ok h, body ++ rest)) by (apply accepts_header; eauto).
    rewrite E1. clear E1. rewrite app_length in L. unfold pbind at 1, plift, data_len, csub.
    destruct (N.ltb_spec (h_event_len h) 19) as [L1|L1]; [lia|]. unfold pbind at 1.
    assert (E2 : read_len (h_event_len h - 19) (body ++ rest) = (Ok body, rest)) by (apply te_len; exists body; split; [reflexivity|]; split; [lia|reflexivity]).
    rewrite E2. clear E2.
    set (d := mk_fde (st_binlog_version start) (st_server_version start) (st_create_timestamp start) hlen table
                (match tail with [] => 0 | b :: _ => b2n b end)).
    assert (Fl : (tail = [] /\ fde_checksum_flag d = 0) \/ (exists b more, tail = b :: more /\ fde_checksum_flag d = b2n b))
      by (destruct tail; [left; auto|right; eexists _, _; split; reflexivity]).
    assert (E3 : fst (read_fde body) = Ok d).
    { apply accepts_fde. exists tail, own. destruct start. split; [exact F|]. split; [exact N14|]. split; [exact Own|exact Fl]. }
    destruct (read_fde body) as [r left] eqn:E4. cbn [fst] in E3. subst r. apply fde_left in E4.
    change (fde_post_header_lengths d) with table in E4. rewrite (body_left _ _ _ _ _ F) in E4. subst left.
    apply (tail_read d tail o rest Fl). exact S.
Qed.
Lemma header_det h h' w w' r r' : header_layout h w -> header_layout h' w' -> w ++ r = w' ++ r' -> h = h'.
Proof.
  intros H H' E.
  assert (A : read_event_header (w ++ r) = (Ok h, r)) by (apply accepts_header; eauto).
  assert (B : read_event_header (w' ++ r') = (Ok h', r')) by (apply accepts_header; eauto). rewrite E in A. congruence.
Qed.
Theorem accepts_open : takes_exactly from_binlog_file opened_layout.
Proof.
  intros bs p rest. unfold from_binlog_file, opened_layout. split.
  - intros E. unfold pbind at 1 in E. destruct (read_binlog_version bs) as [[v|e|x|] m] eqn:E1; try discriminate.
    apply accepts_version in E1. destruct E1 as (-> & h & hw & more & -> & H & V). destruct v; try discriminate. cbn in V.
    unfold pbind at 1 in E. destruct (from_fde_bytes (hw ++ more)) as [[[p' sum]|e|x|] m] eqn:E2; try discriminate.
    injection E as -> ->. apply open_event in E2. destruct E2 as (h' & w & E2 & F).
    assert (h' = h).
    { destruct F as (a & b & c & d & e & F & _). apply fields_cons_inv in F. destruct F as (hw' & r & -> & H' & _).
      rewrite <- app_assoc in E2. symmetry. eapply header_det; [exact H|exact H'|exact E2]. }
    subst h'. exists ([xfe; x62; x69; x6e] ++ w). rewrite E2. split; [rewrite app_assoc; reflexivity|].
    exists h, sum. split; [exact V|]. constructor; [reflexivity|]. apply fields_one. exact F.
  - intros (w & -> & h & sum & V & F). apply fields_cons_inv in F. destruct F as (w1 & w2 & -> & -> & F). rewrite fields_one in F.
    unfold pbind at 1. assert (E1 : read_binlog_version (([xfe; x62; x69; x6e] ++ w2) ++ rest) = (Ok V4, w2 ++ rest)).
    { apply accepts_version. rewrite <- app_assoc. split; [reflexivity|].
      destruct F as (a & b & c & d & e & F & _). apply fields_cons_inv in F. destruct F as (hw & r & -> & H & _).
      exists h, hw, (r ++ rest). rewrite <- app_assoc. split; [reflexivity|]. split; [exact H|exact V]. }
    rewrite E1. clear E1. unfold pbind at 1.
    assert (E2 : from_fde_bytes (w2 ++ rest) = (Ok (p, sum), rest)) by (apply open_event; eauto). rewrite E2. reflexivity.
Qed.
Theorem accepts_first : takes_exactly from_fde_bytes (fun o w => exists h, first_event_layout h o w).
Proof.
  intros bs o rest. rewrite open_event. split; [intros (h & w & A & B); eauto|intros (w & A & h & B); eauto].
Qed.
Theorem accepts_file crc validate n :
  takes_exactly (p <- from_binlog_file ;; prepeat n (parse_event crc p validate)) (file_layout crc validate n).
Proof.
  eapply te_bind with (F := fun p es w => length es = n /\ fields (map (event_layout crc (p_checksum p) validate) es) w); [exact accepts_open| |].
  - intros p w _. apply te_repeat. apply accepts_event.
  - intros es w. unfold file_layout. split.
    + intros (p & L & F). apply fields_cons_inv in F. destruct F as (w1 & w2 & -> & H & F). exists p, w1, w2. auto.
    + intros (p & w1 & w2 & -> & H & L & F). exists p. split; [exact L|]. constructor; assumption.
Qed.
Theorem accepts_checksum crc self bs : checksum_event crc self bs = Ok tt <-> p_checksum self = true /\ checked_layout crc bs.
Proof.
  unfold checksum_event, checked_layout. destruct (p_checksum self); cbn [negb]; [|split; [discriminate|intros [X _]; discriminate X]].
  split.
  - intros E. split; [reflexivity|]. destruct (read_event_header bs) as [[h|e|x|] more] eqn:E1; try discriminate. cbn [fst rbind] in E.
    apply accepts_header in E1. destruct E1 as (hw & E1 & H).
    destruct (read_len (h_event_len h) bs) as [[raw|e|x|] rest] eqn:E2; try discriminate. cbn [fst rbind] in E.
    apply te_len in E2. destruct E2 as (w & E2 & L & ->). unfold csub, blen in E. destruct (N.ltb_spec (N.of_nat (length raw)) 4) as [L4|L4]; try discriminate.
    cbn [rbind] in E. unfold split_at in E. set (k := N.to_nat (N.of_nat (length raw) - 4)) in *.
    destruct (read_le_u32 (skipn k raw)) as [[c|e|x|] r] eqn:E3; try discriminate. cbn [fst rbind] in E.
    apply te_u32 in E3. destruct E3 as (t & E3 & [Lt Et]).
    assert (length (skipn k raw) = 4%nat) by (rewrite skipn_length; lia). rewrite E3, app_length in H0.
    assert (r = []) by (destruct r; [reflexivity|cbn in H0; lia]). subst r. rewrite app_nil_r in E3.
    destruct (N.eqb_spec c (crc (firstn k raw))) as [X|X]; try discriminate.
    exists h, hw, more, (firstn k raw), (skipn k raw), rest. split; [exact E1|]. split; [exact H|].
    split; [rewrite E2, app_assoc, firstn_skipn; reflexivity|]. split; [rewrite E3; lia|]. split; [rewrite firstn_length; lia|].
    rewrite E3, Et. exact X.
  - intros (_ & h & hw & more & front & trailer & rest & E1 & H & E2 & Lt & L & X).
    assert (R1 : read_event_header bs = (Ok h, more)) by (apply accepts_header; eauto). rewrite R1. cbn [fst rbind].
    assert (R2 : read_len (h_event_len h) bs = (Ok (front ++ trailer), rest)).
    { apply te_len. exists (front ++ trailer). rewrite <- app_assoc. split; [exact E2|]. split; [rewrite app_length; lia|reflexivity]. }
    rewrite R2. cbn [fst rbind]. unfold csub, blen. rewrite app_length, Lt. destruct (N.ltb_spec (N.of_nat (length front + 4)) 4); [lia|].
    cbn [rbind]. unfold split_at. replace (N.to_nat (N.of_nat (length front + 4) - 4)) with (length front) by lia.
    rewrite firstn_app, firstn_all, Nat.sub_diag, firstn_O, app_nil_r, skipn_app, skipn_all, Nat.sub_diag. cbn [app skipn].
    assert (R3 : read_le_u32 trailer = (Ok (le_val trailer), [])) by (apply te_u32; exists trailer; rewrite app_nil_r; split; [reflexivity|]; split; [exact Lt|reflexivity]).
    rewrite R3. cbn [fst rbind]. rewrite X, N.eqb_refl. reflexivity.
Qed.
