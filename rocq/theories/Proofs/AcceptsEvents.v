(** * Binlog events are taken exactly for what their layout says *)
From Coq Require Import Lia.
From Verif Require Import Model.Base Model.BytesParser Model.LenEnc Model.Utf8 Model.Flags Model.Cmd Model.Bitmap
  Model.Col Model.Row Model.Event Model.EventBody Model.Rows
  Spec.Nums Spec.LenEncSpec Spec.Wire Spec.Accepts Spec.AcceptsEvents
  Proofs.BaseLemmas Proofs.BytesParserProofs Proofs.LenEncProofs Proofs.PacketProofs
  Proofs.EventProofs Proofs.AcceptsProofs Proofs.AcceptsPackets Proofs.AcceptsRows.
Open Scope N_scope.

Lemma tm_tail {A} (p : parser A) (C : A -> Prop) (P : A -> bytes -> Prop) :
  (forall t v, fst (p t) = Ok v <-> C v /\ P v t) -> takes_message p (fun v w => C v /\ fields [P v] w).
Proof. intros H msg v. rewrite fields_one. apply H. Qed.
Lemma te_prefixed (p : parser N) E : takes_exactly p E -> takes_exactly (n <- p ;; read_len n) (behind_length E).
Proof.
  intros P. eapply te_bind; [exact P|intros n w _; apply te_len|]. intros s w. unfold behind_length, exactly. split.
  - intros (l & H & ->). exists (N.of_nat (length s)), l, s. auto.
  - intros (n & w1 & w2 & -> & H & <- & ->). eauto.
Qed.
Lemma te_when {A} (b : bool) (p : parser A) (E : A -> bytes -> Prop) : takes_exactly p E ->
  takes_exactly (if b then p else pfail EConstraint) (fun v w => b = true /\ E v w).
Proof. intros P. destruct b; [eapply te_iff; [|exact P]; tauto|apply te_fail; [discriminate|intros v w [X _]; discriminate]]. Qed.
(** the rest of the input up to a NUL *)
Lemma until_ok s v : until_nul s = Ok v <-> padded_rest v s.
Proof.
  unfold until_nul, padded_rest. destruct (read_until x00 false s) as [r rest] eqn:E. cbn [fst]. split.
  - intros ->. apply read_until_inv in E. destruct E as (a & H & -> & ->). eauto.
  - intros (H & pad & ->). rewrite read_until_excl in E by exact H. injection E as <- _. reflexivity.
Qed.
Lemma te_padded k : takes_exactly (s <- read_len k ;; plift (until_nul s)) (padded k).
Proof.
  eapply te_bind with (F := fun s v w => until_nul s = Ok v /\ w = []); [apply te_len| |].
  - intros s w _ bs v rest. unfold plift. split; [intros [= H <-]; exists []; auto|intros (w1 & -> & H & ->); rewrite H; reflexivity].
  - intros v w. unfold padded, exactly. split.
    + intros (L & H). exists w, w, []. rewrite app_nil_r. repeat split; [exact L|]. apply until_ok. exact H.
    + intros (s & w1 & w2 & -> & (L & ->) & H & ->). rewrite app_nil_r. split; [exact L|]. apply until_ok. exact H.
Qed.

(** ** Headers *)
Lemma code_event c t : event_type_of (b2n c) = Ok t <-> b2n c = event_type_code t.
Proof. destruct c; destruct t; cbn; split; intros H; try discriminate; reflexivity. Qed.
Lemma te_event_type : takes_exactly (c <- read_u8 ;; plift (event_type_of c)) (fun t w => byte1 (event_type_code t) w).
Proof.
  eapply te_bind with (F := fun c t w => event_type_of c = Ok t /\ w = []); [apply te_u8| |].
  - intros l w _ bs v rest. unfold plift. split; [intros [= H <-]; exists []; auto|intros (w1 & -> & H & ->); rewrite H; reflexivity].
  - intros t w. split.
    + intros H. exists (event_type_code t), w, []. rewrite app_nil_r. split; [reflexivity|]. split; [exact H|]. split; [|reflexivity].
      apply byte1_eq in H. destruct H as (b & -> & E). rewrite E. apply code_event. symmetry. exact E.
    + intros (c & w1 & w2 & -> & H & X & ->). rewrite app_nil_r. pose proof H as H'. apply byte1_eq in H'. destruct H' as (b & -> & ->).
      apply code_event in X. rewrite <- X. exact H.
Qed.
Lemma accepts_type : takes_exactly read_event_type type_layout.
Proof.
  unfold read_event_type, type_layout. apply te_true. eapply te_skip; [apply (te_len 4)|apply (any_len 4)|intros _].
  eapply te_iff; [|apply te_event_type]. intros t w. cbv beta. rewrite fields_one. tauto.
Qed.
Lemma accepts_length : takes_exactly read_event_length length_layout.
Proof.
  unfold read_event_length, length_layout. apply te_true. eapply te_skip; [apply (te_len 9)|apply (any_len 9)|intros _].
  eapply te_iff; [|apply te_u32]. intros t w. cbv beta. rewrite fields_one. tauto.
Qed.
(** the type is looked at behind the length *)
Lemma type_late {A} (f : log_event_type -> N -> N -> parser A) bs v rest :
  (c <- read_u8 ;; a <- read_le_u32 ;; b <- read_le_u32 ;; t <- plift (event_type_of c) ;; f t a b) bs = (Ok v, rest) <->
  (t <- (c <- read_u8 ;; plift (event_type_of c)) ;; a <- read_le_u32 ;; b <- read_le_u32 ;; f t a b) bs = (Ok v, rest).
Proof.
  unfold pbind, plift. destruct (read_u8 bs) as [[c|e|w|] r1]; try tauto.
  destruct (event_type_of c) as [t|e|w|]; [tauto|..]; split; try discriminate;
    destruct (read_le_u32 r1) as [[x|? |?|] r2]; try discriminate; destruct (read_le_u32 r2) as [[y|? |?|] r3]; discriminate.
Qed.
Lemma te_ext_ok {A} (p q : parser A) E : (forall bs v rest, p bs = (Ok v, rest) <-> q bs = (Ok v, rest)) -> takes_exactly q E -> takes_exactly p E.
Proof. intros H Q bs v rest. rewrite H. apply Q. Qed.
Lemma accepts_header_v1 : takes_exactly read_event_header_v1 header_v1_layout.
Proof.
  unfold read_event_header_v1, header_v1_layout. apply te_true.
  apply (te_field _ (is_le 4) _ h1_timestamp); [apply te_u32|intros ts].
  eapply te_ext_ok; [intros bs v rest; apply type_late|].
  apply (te_field _ (fun t w => byte1 (event_type_code t) w) _ h1_type); [apply te_event_type|intros t].
  apply (te_field _ (is_le 4) _ h1_server_id); [apply te_u32|intros server].
  apply (te_field _ (is_le 4) _ h1_event_len); [apply te_u32|intros len].
  apply te_done. parts.
Qed.
Lemma te_header_flags : takes_exactly (f <- read_le_u16 ;; pret (from_bits_truncate all_header_flags f)) header_flags.
Proof.
  eapply te_bind with (F := fun f v w => v = f mod 2 ^ 10 /\ w = []); [apply te_u16| |].
  - intros f w _. apply te_ret. intros v w'. unfold from_bits_truncate. change all_header_flags with (N.ones 10). rewrite N.land_ones. reflexivity.
  - intros v w. unfold header_flags. split; [intros (n & H & E); exists n, w, []; rewrite app_nil_r; auto|].
    intros (n & w1 & w2 & -> & H & E & ->). rewrite app_nil_r. eauto.
Qed.
Lemma accepts_header : takes_exactly read_event_header header_layout.
Proof.
  unfold read_event_header, header_layout.
  apply (te_ext_ok _ (ts <- read_le_u32 ;; t <- (c <- read_u8 ;; plift (event_type_of c)) ;; s <- read_le_u32 ;; l <- read_le_u32 ;;
    n <- read_le_u32 ;; f <- (f <- read_le_u16 ;; pret (from_bits_truncate all_header_flags f)) ;; pret (mk_header ts t s l n f))).
  { intros bs v rest. unfold read_event_header_v1. unfold pbind, plift, pret. destruct (read_le_u32 bs) as [[ts|e|w|] r1]; try tauto.
    destruct (read_u8 r1) as [[c|e|w|] r2]; try tauto.
    destruct (event_type_of c) as [t|e|w|]; [|split; try discriminate; destruct (read_le_u32 r2) as [[x|? |?|] r3]; try discriminate; destruct (read_le_u32 r3) as [[y|? |?|] r4]; discriminate..].
    destruct (read_le_u32 r2) as [[x|? |?|] r3]; try tauto; destruct (read_le_u32 r3) as [[y|? |?|] r4]; try tauto.
    cbn [h1_timestamp h1_type h1_server_id h1_event_len].
    destruct (read_le_u32 r4) as [[z|? |?|] r5]; try tauto. destruct (read_le_u16 r5) as [[u|? |?|] r6]; tauto. }
  apply te_true.
  apply (te_field _ (is_le 4) _ h_timestamp); [apply te_u32|intros ts].
  apply (te_field _ (fun t w => byte1 (event_type_code t) w) _ h_type); [apply te_event_type|intros t].
  apply (te_field _ (is_le 4) _ h_server_id); [apply te_u32|intros server].
  apply (te_field _ (is_le 4) _ h_event_len); [apply te_u32|intros len].
  apply (te_field _ (is_le 4) _ h_next_pos); [apply te_u32|intros next].
  apply (te_field _ header_flags _ h_flags); [apply te_header_flags|intros flags].
  apply te_done. parts.
Qed.
Lemma header_len h w : header_layout h w -> length w = 19%nat.
Proof.
  unfold header_layout. intros H.
  do 6 (apply fields_cons_inv in H; destruct H as (? & ? & -> & ? & H)). apply fields_nil_inv in H. subst.
  repeat match goal with X : is_le _ _ _ |- _ => destruct X as [X _] | X : byte1 _ _ |- _ => destruct X as [X _] | X : header_flags _ _ |- _ => destruct X as (? & [X _] & _) end.
  rewrite !app_length. cbn [length]. lia.
Qed.
Lemma peek_header bs : (exists h w more, bs = w ++ more /\ header_layout h w /\ fst (read_event_header bs) = Ok h) \/
  ((forall h, fst (read_event_header bs) <> Ok h) /\ forall h w more, bs = w ++ more -> ~ header_layout h w).
Proof.
  destruct (read_event_header bs) as [[h|e|w|] r] eqn:E.
  { left. apply accepts_header in E as E'. destruct E' as (w & -> & H). exists h, w, r. auto. }
  all: right; split; [discriminate|]; intros h w' more -> H; assert (X : read_event_header (w' ++ more) = (Ok h, more)) by (apply accepts_header; eauto); congruence.
Qed.
Lemma accepts_version : tells_version read_binlog_version.
Proof.
  intros bs v rest. unfold read_binlog_version.
  assert (V : forall h r, (match h_type h with
     | EtStartEventV3 => if h_event_len h <? 75 then pret V1 else pret V3
     | EtFormatDescription => pret V4
     | _ => pfail EConstraint end) r = (Ok v, rest) <-> r = rest /\ version_of h v).
  { intros h r. unfold version_of. destruct (h_type h); cbn [pfail];
      try (split; [discriminate|intros [_ X]; destruct v; try (destruct X; discriminate); discriminate]).
    - destruct (N.ltb_spec (h_event_len h) 75); unfold pret; (split; [intros [= <- <-]; auto|]); intros [-> X];
        destruct v; try discriminate; try reflexivity; destruct X; lia.
    - unfold pret. split; [intros [= <- <-]; auto|]. intros [-> X]. destruct v; try reflexivity; destruct X; discriminate. }
  split.
  - intros E. unfold pbind at 1 in E. destruct (read_len 4 bs) as [[m|e|w|] r] eqn:E4; try discriminate.
    apply te_len in E4. destruct E4 as (w & -> & L & ->).
    destruct (beqb_spec m magic) as [->|]; cbn [negb] in E; [|discriminate].
    unfold pbind, ppeek in E. destruct (peek_header r) as [(h & w & more & Er & H & F)|[F _]].
    + rewrite F in E. apply V in E. destruct E as [-> E]. split; [reflexivity|]. exists h, w, more. auto.
    + exfalso. destruct (fst (read_event_header r)) eqn:X; try discriminate. exact (F _ eq_refl).
  - intros (-> & h & w & more & Er & H & X).
    unfold pbind at 1. rewrite (proj2 (te_len 4 ([xfe; x62; x69; x6e] ++ rest) magic rest)) by (exists magic; repeat split).
    change (beqb magic magic) with true. cbn [negb]. unfold pbind, ppeek.
    assert (Y : read_event_header rest = (Ok h, more)) by (rewrite Er; apply accepts_header; eauto). rewrite Y. cbn [fst].
    apply V. auto.
Qed.

(** ** The first event *)
Lemma accepts_start : takes_exactly read_start_data start_layout.
Proof.
  unfold read_start_data, start_layout.
  apply (te_field _ (is_le 2) _ st_binlog_version); [apply te_u16|intros version].
  apply (te_ext _ (s <- (s <- (f <- read_len 50 ;; plift (until_nul f)) ;; plift (from_utf8 s)) ;; t <- read_le_u32 ;; pret (mk_start version s t))).
  { intros bs. rewrite <- !bind_assoc. unfold until_nul, pbind. destruct (read_len 50 bs) as [[] ?]; reflexivity. }
  apply (te_field_if _ (fun s => utf8_valid s = true) (padded 50) _ st_server_version); [apply te_utf8, te_padded|tauto|intros server U].
  apply (te_field _ (is_le 4) _ st_create_timestamp); [apply te_u32|intros ts].
  apply te_done. parts.
Qed.
Lemma accepts_fde : takes_message read_fde fde_layout.
Proof.
  unfold read_fde. eapply tm_bind with (F := fun st d w => st = mk_start (fde_binlog_version d) (fde_server_version d) (fde_create_timestamp d) /\
    exists tail own, fields [byte1 (fde_header_length d); exactly (fde_post_header_lengths d); exactly tail] w /\
    nth_error (fde_post_header_lengths d ++ tail) 14 = Some own /\
    b2n own = 57 + N.of_nat (length (fde_post_header_lengths d)) /\
    ((tail = [] /\ fde_checksum_flag d = 0) \/ exists b more, tail = b :: more /\ fde_checksum_flag d = b2n b)); [apply accepts_start| |].
  2:{ intros d w. unfold fde_layout. split.
      - intros (tail & own & H & X). apply fields_cons_inv in H. destruct H as (w1 & w2 & -> & H1 & H2). eexists _, w1, w2.
        split; [reflexivity|]. split; [exact H1|]. split; [reflexivity|]. exists tail, own. auto.
      - intros (st & w1 & w2 & -> & H1 & -> & tail & own & H2 & X). exists tail, own. split; [constructor; assumption|exact X]. }
  intros st w0 _.
  eapply tm_bind with (F := fun hl d w => hl = fde_header_length d /\ st = mk_start (fde_binlog_version d) (fde_server_version d) (fde_create_timestamp d) /\
    exists tail own, w = fde_post_header_lengths d ++ tail /\
    nth_error (fde_post_header_lengths d ++ tail) 14 = Some own /\
    b2n own = 57 + N.of_nat (length (fde_post_header_lengths d)) /\
    ((tail = [] /\ fde_checksum_flag d = 0) \/ exists b more, tail = b :: more /\ fde_checksum_flag d = b2n b)); [apply te_u8| |].
  2:{ intros d w. split.
      - intros (E & tail & own & H & X). apply fields_cons_inv in H. destruct H as (w1 & w2 & -> & H1 & H2).
        apply fields_cons_inv in H2. destruct H2 as (w3 & w4 & -> & -> & H2). rewrite fields_one in H2. unfold exactly in H2. subst w4.
        eexists _, w1, _. split; [reflexivity|]. split; [exact H1|]. split; [reflexivity|]. split; [exact E|]. exists tail, own. auto.
      - intros (hl & w1 & w2 & -> & H1 & -> & E & tail & own & -> & X). split; [exact E|]. exists tail, own.
        split; [constructor; [exact H1|]; constructor; [reflexivity|]; apply fields_one; reflexivity|exact X]. }
  intros hl w1 _ msg d. unfold pbind at 1, bget.
  change (N.to_nat (event_type_code EtFormatDescription) - 1)%nat with 14%nat.
  destruct (nth_error msg 14) as [own|] eqn:En.
  2:{ cbn [fst]. split; [discriminate|]. intros (_ & _ & tail & own & -> & X & _). congruence. }
  cbn [fst snd]. unfold pbind at 1, plift, csub. destruct (N.ltb_spec (b2n own) 57) as [L|L].
  { cbn [fst]. split; [discriminate|]. intros (_ & _ & tail & own' & -> & X & Y & _). assert (own' = own) by congruence. subst. lia. }
  unfold pbind at 1, premaining. cbn [fst].
  destruct (N.eqb_spec (blen msg) (b2n own - 57)) as [E|E].
  { unfold pbind, read_rest, pret. cbn [fst]. split.
    - intros [= <-]. cbn [fde_header_length fde_binlog_version fde_server_version fde_create_timestamp fde_post_header_lengths fde_checksum_flag]. split; [reflexivity|]. split; [destruct st; reflexivity|]. exists [], own. rewrite app_nil_r.
      split; [reflexivity|]. split; [exact En|]. split; [unfold blen in E; lia|]. auto.
    - intros (Eh & Est & tail & own' & -> & X & Y & Z). assert (own' = own) by congruence. subst own'.
      unfold blen in E. rewrite app_length in E. assert (tail = []) by (destruct tail; [reflexivity|cbn [length] in E; lia]). subst tail.
      destruct Z as [[_ Z]|(b & more & Z & _)]; [|discriminate]. subst st hl. destruct d; cbn in *. rewrite app_nil_r, Z. reflexivity. }
  unfold pbind at 1, split_to. destruct (N.ltb_spec (blen msg) (b2n own - 57)) as [L'|L'].
  { cbn [fst]. split; [discriminate|]. intros (_ & _ & tail & own' & -> & X & Y & Z). assert (own' = own) by congruence. subst own'.
    unfold blen in L'. rewrite app_length in L'. lia. }
  destruct (skipn (N.to_nat (b2n own - 57)) msg) as [|b more] eqn:Es.
  { exfalso. apply (f_equal (@length byte)) in Es. rewrite skipn_length in Es. cbn [length] in Es. unfold blen in *. lia. }
  unfold pbind, read_u8, pret. cbn [fst]. pose proof (firstn_skipn (N.to_nat (b2n own - 57)) msg) as Em. rewrite Es in Em.
  split.
  - intros [= <-]. cbn [fde_header_length fde_binlog_version fde_server_version fde_create_timestamp fde_post_header_lengths fde_checksum_flag]. split; [reflexivity|]. split; [destruct st; reflexivity|]. exists (b :: more), own.
    split; [symmetry; exact Em|]. split; [rewrite Em; exact En|]. split; [rewrite firstn_length; unfold blen in *; lia|]. right. eauto.
  - intros (Eh & Est & tail & own' & -> & X & Y & Z). assert (own' = own) by congruence. subst own'.
    assert (El : N.to_nat (b2n own - 57) = length (fde_post_header_lengths d)) by lia. rewrite El in *.
    rewrite skipn_app, skipn_all, Nat.sub_diag in Es. cbn in Es. subst tail.
    rewrite firstn_app, firstn_all, Nat.sub_diag, firstn_O, app_nil_r.
    destruct Z as [[Z _]|(b' & more' & [= <- <-] & Z)]; [discriminate|]. subst st hl. destruct d; cbn in *. rewrite Z. reflexivity.
Qed.

(** ** Bodies without surprises *)
Lemma accepts_xid : takes_exactly read_xid xid_layout.
Proof. exact te_u64. Qed.
Lemma accepts_rand : takes_exactly read_rand rand_layout.
Proof.
  unfold read_rand, rand_layout. apply te_true.
  apply (te_field _ (is_le 8) _ fst); [apply te_u64|intros s1]. apply (te_field _ (is_le 8) _ snd); [apply te_u64|intros s2].
  apply te_done. parts.
Qed.
Lemma te_bits mask k (p : parser N) E : takes_exactly p E -> mask = N.ones k ->
  takes_exactly (x <- p ;; match from_bits mask x with Some f => pret f | None => pfail EConstraint end) (fun x w => x < 2 ^ k /\ E x w).
Proof.
  intros P ->. eapply te_bind with (F := fun x v w => x < 2 ^ k /\ v = x /\ w = []); [exact P| |].
  - intros x w _. unfold from_bits. pose proof (ldiff_mask k x) as H. destruct (N.eqb_spec (N.ldiff x (N.ones k)) 0) as [e|e].
    + apply te_ret. intros v w'. apply H in e. tauto.
    + apply te_fail; [discriminate|]. intros v w' [X _]. apply H in X. contradiction.
  - intros v w. split; [intros [H X]; exists v, w, []; rewrite app_nil_r; auto|].
    intros (x & w1 & w2 & -> & H & X & -> & ->). rewrite app_nil_r. auto.
Qed.
Lemma accepts_intvar : takes_exactly read_intvar intvar_layout.
Proof.
  unfold read_intvar, intvar_layout. eapply te_ext; [intros bs; apply bind_assoc|].
  apply (te_field_if _ (fun x => x < 2 ^ 2) byte1 _ fst); [apply te_bits; [apply te_u8|reflexivity]|intros v H; exact H|intros key H].
  apply (te_field _ (is_le 8) _ snd); [apply te_u64|intros s2].
  apply te_done. parts.
Qed.
Lemma accepts_incident : takes_exactly read_incident incident_layout.
Proof.
  unfold read_incident, incident_layout.
  apply (te_field _ (is_le 2) _ in_type); [apply te_u16|intros t].
  apply (te_field _ byte1 _ in_msg_len); [apply te_u8|intros n].
  apply (te_field_if _ (fun s : bytes => N.of_nat (length s) = n) exactly _ in_msg); [apply te_len|intuition congruence|intros s H].
  apply te_done. parts.
Qed.
Ltac to_end f := apply (tm_rest _ f); intros ? v; cbn [pret fst]; destruct v; cbn; split;
  [let H := fresh in intros H; injection H as; subst; tauto|let H := fresh in intros H; decompose [and] H; subst; reflexivity].
Lemma accepts_rotate : takes_message read_rotate rotate_layout.
Proof.
  unfold read_rotate, rotate_layout. apply tm_true. apply (tm_field _ (is_le 8) _ fst); [apply te_u64|intros p]. to_end (@snd N bytes).
Qed.
Lemma accepts_user_var : takes_message read_user_var user_var_layout.
Proof.
  unfold read_user_var, user_var_layout.
  apply (tm_field _ (is_le 4) _ uv_name_length); [apply te_u32|intros n].
  apply (tm_field_if _ (fun s : bytes => N.of_nat (length s) = n) exactly _ uv_name); [apply te_len|intuition congruence|intros s H].
  apply (tm_field _ byte1 _ uv_is_null); [apply te_u8|intros isnull].
  apply (tm_rest _ uv_value); intros v' v; cbn [pret fst]; destruct v; cbn. split;
  [intros [= <- <- <- <-]; auto|intros X; decompose [and] X; subst; reflexivity].
Qed.
Lemma accepts_user_var_value : takes_message read_user_var_value user_var_value_layout.
Proof.
  unfold read_user_var_value, user_var_value_layout.
  apply (tm_field _ byte1 _ uvv_type); [apply te_u8|intros ty].
  apply (tm_field _ (is_le 4) _ uvv_charset); [apply te_u32|intros cs].
  eapply tm_ext; [intros bs; apply bind_assoc|].
  apply (tm_field _ (behind_length (is_le 4)) _ uvv_value); [apply te_prefixed, te_u32|intros value].
  apply tm_tail. intros t v. unfold pbind at 1, premaining.
  destruct t as [|b t].
  - change (0 <? blen []) with false. cbn. destruct v; cbn. split.
    + intros [= <- <- <- <-]. repeat split; try lia. left. auto.
    + intros ((((_ & E1) & E2) & E3) & [[_ E4]|X]); [subst; reflexivity|].
      apply fields_cons_inv in X. destruct X as (w1 & w2 & E & [L _] & _). destruct w1; discriminate.
  - replace (0 <? blen (b :: t)) with true by (symmetry; apply N.ltb_lt; unfold blen; cbn [length]; lia).
    unfold pbind, read_u8. unfold from_bits. change all_user_var_flags with (N.ones 1). pose proof (ldiff_mask 1 (b2n b)) as HM.
    assert (HF : forall f, fields [byte1 f; leftover] (b :: t) <-> f = b2n b).
    { intros f. rewrite fields_cons_inv. split.
      - intros (w1 & w2 & E & H & _). apply byte1_eq in H. destruct H as (c & -> & ->). injection E as -> _. reflexivity.
      - intros ->. exists [b], t. split; [reflexivity|]. split; [apply byte1_eq; eauto|apply fields_one; exact I]. }
    rewrite HF. destruct (N.eqb_spec (N.ldiff (b2n b) (N.ones 1)) 0) as [e|e].
    + apply HM in e. cbn [pret fst]. destruct v; cbn. split.
      * intros [= <- <- <- <-]. repeat split; [lia|]. right. reflexivity.
      * intros ((((_ & E1) & E2) & E3) & [[X _]|X]); [discriminate|]. subst. reflexivity.
    + cbn. split; [discriminate|]. intros ((((X & _) & _) & _) & [[Y _]|Y]); [discriminate|]. exfalso. apply e. apply HM. rewrite <- Y. lia.
Qed.
Lemma app_eq_app_len {A} (a b c d : list A) : a ++ b = c ++ d -> length a = length c -> a = c /\ b = d.
Proof.
  revert c. induction a as [|x a IH]; intros [|y c] E L; try discriminate; [auto|]. injection E as -> E. injection L as L.
  destruct (IH c E L) as [-> ->]. auto.
Qed.
Lemma any17 (t : bytes) : (17 <= length t)%nat -> exists a b c more, t = a ++ b ++ c ++ more /\ length a = 1%nat /\ length b = 8%nat /\ length c = 8%nat.
Proof.
  intros L. exists (firstn 1 t), (firstn 8 (skipn 1 t)), (firstn 8 (skipn 8 (skipn 1 t))), (skipn 8 (skipn 8 (skipn 1 t))).
  rewrite !firstn_skipn. repeat split; rewrite firstn_length, ?skipn_length; lia.
Qed.
Lemma accepts_gtid_log : takes_message read_gtid_log gtid_log_layout.
Proof.
  unfold read_gtid_log, gtid_log_layout. apply tm_true.
  apply (tm_field _ byte1 _ gl_flags); [apply te_u8|intros flags].
  apply (tm_field _ (is_le 16) _ gl_sid); [apply te_u128|intros sid].
  apply (tm_field _ (is_le 8) _ gl_gno); [apply te_u64|intros gno].
  apply tm_tail. intros t v. unfold read_logical_ts.
  destruct (Nat.ltb_spec (length t) 17) as [L|L].
  - unfold pbind, premaining. replace (blen t <? 17) with true by (symmetry; apply N.ltb_lt; unfold blen; lia). cbn. destruct v; cbn. split.
    + intros [= <- <- <- <- <- <-]. repeat split. left. auto.
    + intros ((((_ & E1) & E2) & E3) & [(_ & E4 & E5 & E6)|X]); [subst; reflexivity|].
      do 3 (apply fields_cons_inv in X; destruct X as (? & ? & E & [? _] & X); subst t || subst; rewrite !app_length in L). cbn in *. lia.
  - apply any17 in L. destruct L as (a & b & c & more & -> & La & Lb & Lc).
    destruct a as [|a0 [|]]; try discriminate. assert (Ha : byte1 (b2n a0) [a0]) by (apply byte1_eq; eauto).
    assert (Hb : is_le 8 (le_val b) b) by (split; auto). assert (Hc : is_le 8 (le_val c) c) by (split; auto).
    unfold pbind, premaining. replace (blen ([a0] ++ b ++ c ++ more) <? 17) with false by (symmetry; apply N.ltb_ge; unfold blen; rewrite !app_length; cbn [length]; lia).
    rewrite (proj2 (te_u8 ([a0] ++ b ++ c ++ more) (b2n a0) (b ++ c ++ more))) by eauto.
    rewrite (proj2 (te_u64 (b ++ c ++ more) (le_val b) (c ++ more))) by eauto.
    rewrite (proj2 (te_u64 (c ++ more) (le_val c) more)) by eauto. cbn [pret fst].
    destruct v as [f s g t1 t2 t3]; cbn [gl_flags gl_sid gl_gno gl_ts_type gl_last_committed gl_seq_num]. split.
    + intros [= <- <- <- <- <- <-]. repeat split. right. repeat (constructor; [assumption|]). apply fields_one. exact I.
    + intros ((((_ & E1) & E2) & E3) & [(X & _)|X]); [rewrite !app_length in X; cbn [length] in X; lia|].
      apply fields_cons_inv in X. destruct X as (w1 & w2 & E & X1 & X). apply byte1_eq in X1. destruct X1 as (a1 & -> & ->). injection E as <- E.
      apply fields_cons_inv in X. destruct X as (w3 & w4 & -> & [L3 X3] & X).
      apply fields_cons_inv in X. destruct X as (w5 & w6 & -> & [L5 X5] & X).
      apply app_eq_app_len in E; [|congruence]. destruct E as [<- E]. apply app_eq_app_len in E; [|congruence]. destruct E as [<- E]. subst. reflexivity.
Qed.
Lemma tm_map {A B} (g : A -> B) (p : parser A) E F :
  takes_message p E -> (forall v w, F v w <-> exists a, v = g a /\ E a w) -> takes_message (pmap g p) F.
Proof. intros P H msg v. rewrite fst_pmap, H. split; intros (a & -> & X); exists a; (split; [reflexivity|apply P; exact X]). Qed.
Lemma accepts_anonymous : takes_message read_anonymous_gtid_log gtid_log_layout.
Proof.
  apply (tm_map (fun gld => mk_gtid_log (gl_flags gld) (gl_sid gld) (gl_gno gld) (gl_ts_type gld) (gl_last_committed gld) (gl_seq_num gld)) _ _ _ accepts_gtid_log).
  intros v w. split; [intros H; exists v; destruct v; auto|intros (a & -> & H); destruct a; exact H].
Qed.

(** ** Sets of transactions *)
Lemma te_intervals n last : takes_exactly (read_gtid_intervals n last) (fun l w => length l = n /\ intervals_layout last l w).
Proof.
  revert last. induction n as [|n IH]; intros last; cbn [read_gtid_intervals].
  { apply te_ret. intros v w. split; [intros [L H]; destruct v; [auto|discriminate]|intros [-> ->]; split; reflexivity]. }
  eapply te_bind with (F := fun s l w => exists e l', l = (s, e) :: l' /\ length l' = n /\ last < s /\ s <= e /\ fields [is_le 8 (e + 1); intervals_layout (e + 1) l'] w);
    [apply te_u64| |].
  2:{ intros l w. split.
      - intros [L H]. destruct l as [|[s e] l]; [discriminate|]. cbn [intervals_layout] in H. destruct H as (H1 & H2 & H).
        apply fields_cons_inv in H. destruct H as (w1 & w2 & -> & X & H). exists s, w1, w2. split; [reflexivity|]. split; [exact X|].
        exists e, l. injection L as L. auto.
      - intros (s & w1 & w2 & -> & X & e & l' & -> & L & H1 & H2 & H). split; [cbn [length]; congruence|]. cbn [intervals_layout].
        split; [exact H1|]. split; [exact H2|]. constructor; assumption. }
  intros s w0 _.
  eapply te_bind with (F := fun e1 l w => exists e l', e1 = e + 1 /\ l = (s, e) :: l' /\ length l' = n /\ last < s /\ s <= e /\ intervals_layout (e + 1) l' w);
    [apply te_u64| |].
  2:{ intros l w. split.
      - intros (e & l' & -> & L & H1 & H2 & H). apply fields_cons_inv in H. destruct H as (w1 & w2 & -> & X & H). rewrite fields_one in H.
        exists (e + 1), w1, w2. split; [reflexivity|]. split; [exact X|]. exists e, l'. auto 7.
      - intros (e1 & w1 & w2 & -> & X & e & l' & -> & -> & L & H1 & H2 & H). exists e, l'. split; [reflexivity|]. split; [exact L|]. split; [exact H1|].
        split; [exact H2|]. constructor; [exact X|]. apply fields_one. exact H. }
  intros e1 w1 _. destruct (N.leb_spec s last) as [L|L]; cbn [orb].
  { apply te_fail; [discriminate|]. intros v w (e & l' & H). decompose [and] H. lia. }
  destruct (N.leb_spec e1 s) as [L'|L'].
  { apply te_fail; [discriminate|]. intros v w (e & l' & H). decompose [and] H. lia. }
  apply (te_map (cons (s, e1 - 1)) _ _ _ (IH e1)). intros v w. split.
  - intros (e & l' & -> & -> & X & H1 & H2 & H). exists l'. replace (e + 1 - 1) with e by lia. auto.
  - intros (l' & -> & X & H). exists (e1 - 1), l'. replace (e1 - 1 + 1) with e1 by lia. repeat split; try assumption; lia.
Qed.
Lemma accepts_gtid_range : takes_exactly read_gtid_range gtid_range_layout.
Proof.
  unfold read_gtid_range, gtid_range_layout.
  apply (te_field _ (is_le 16) _ gr_sid); [apply te_u128|intros sid].
  eapply te_bind with (F := fun n r w => (gr_sid r = sid /\ n = N.of_nat (length (gr_intervals r)) /\ 16 * n < 2 ^ 63) /\ fields [intervals_layout 0 (gr_intervals r)] w); [apply te_u64| |].
  - intros n w _. eapply te_iff; [|apply te_capacity; eapply (te_field_if _ (fun l => length l = N.to_nat n) (intervals_layout 0) _ gr_intervals (fun r => n = N.of_nat (length (gr_intervals r)) /\ gr_sid r = sid)
      (fun _ => []))].
    + intros v w'. cbv beta. tauto.
    + apply te_intervals.
    + intros v [-> _]. lia.
    + intros l L. apply te_done. intros v. destruct v; cbn. split; [intros [[-> ->] ->]; reflexivity|]. intros [= -> ->]. repeat split. lia.
  - intros r w. split.
    + intros ((C & E) & H). apply fields_cons_inv in H. destruct H as (w1 & w2 & -> & X & H). eexists _, w1, w2. split; [reflexivity|]. split; [exact X|]. auto.
    + intros (n & w1 & w2 & -> & X & (E & -> & C) & H). split; [auto|]. constructor; assumption.
Qed.
Lemma existsb_last l k : existsb (fun e => fst e =? k) (last_of_each l) = existsb (fun r => gr_sid r =? k) l.
Proof.
  induction l as [|r l IH]; [reflexivity|]. cbn [last_of_each existsb].
  destruct (existsb (fun r' => gr_sid r' =? gr_sid r) l) eqn:E.
  - rewrite IH. destruct (N.eqb_spec (gr_sid r) k) as [<-|]; [rewrite E; reflexivity|reflexivity].
  - cbn [existsb fst]. rewrite IH. reflexivity.
Qed.
Lemma insert_last l r : map_insert (last_of_each l) (gr_sid r) r = last_of_each (l ++ [r]).
Proof.
  unfold map_insert. induction l as [|x l IH]; [reflexivity|]. cbn [last_of_each app].
  rewrite existsb_app. cbn [existsb]. rewrite orb_false_r.
  destruct (existsb (fun r' => gr_sid r' =? gr_sid x) l) eqn:E; cbn [orb]; [exact IH|].
  cbn [filter fst]. rewrite (N.eqb_sym (gr_sid x)). destruct (gr_sid r =? gr_sid x); cbn [negb app]; [exact IH|]. rewrite IH. reflexivity.
Qed.
Lemma fold_last l : fold_left (fun m r => map_insert m (gr_sid r) r) l [] = last_of_each l.
Proof.
  induction l as [|r l IH] using rev_ind; [reflexivity|]. rewrite fold_left_app. cbn [fold_left]. rewrite IH. apply insert_last.
Qed.
Lemma accepts_gtid_set : takes_exactly read_gtid_set gtid_set_layout.
Proof.
  unfold read_gtid_set.
  eapply te_bind with (F := fun n m w => exists l, m = last_of_each l /\ map_with_capacity n = Ok tt /\ N.of_nat (length l) = n /\ fields (map gtid_range_layout l) w); [apply te_u64| |].
  - intros n w _. apply te_lift.
    + intros [] H. eapply te_map; [apply te_repeat, accepts_gtid_range|]. intros m w'. cbv beta. split.
      * intros (l & -> & _ & L & X). exists l. rewrite fold_last. repeat split; [lia|exact X].
      * intros (l & -> & L & X). exists l. rewrite fold_last. repeat split; [exact H|lia|exact X].
    + intros H m w' (l & _ & X & _). exact (H tt X).
  - intros m w. unfold gtid_set_layout. split.
    + intros (l & -> & C & H). apply fields_cons_inv in H. destruct H as (w1 & w2 & -> & X & H). eexists _, w1, w2. split; [reflexivity|]. split; [exact X|]. eauto 6.
    + intros (n & w1 & w2 & -> & X & l & -> & C & <- & H). exists l. repeat split; [exact C|]. constructor; assumption.
Qed.

(** ** Loads *)
Lemma sum_ok acc l s : sum_u32 acc l = Ok s <-> s = acc + lengths_sum l /\ (l = [] \/ s < 2 ^ 32).
Proof.
  revert acc s. induction l as [|b l IH]; intros acc s; cbn [sum_u32 lengths_sum fold_right].
  - split; [intros [= <-]; split; [lia|auto]|intros [-> _]; f_equal; lia].
  - unfold cadd at 1. fold (lengths_sum l). destruct (N.leb_spec (2 ^ 32) (acc + b2n b)) as [H|H]; cbn [rbind].
    2:{ rewrite IH. split; [intros [-> [-> | X]]; (split; [lia|right]); [cbn [lengths_sum fold_right]; lia|exact X]|].
      intros [-> [X|X]]; [discriminate|]. split; [lia|auto]. }
    split; [discriminate|]. intros [-> [X|X]]; [discriminate|lia].
Qed.
Lemma names_len lens n t : (exists s, sum_u32 0 lens = Ok s /\ cadd 32 s n = Ok t) <-> t = lengths_sum lens + n /\ t < 2 ^ 32.
Proof.
  unfold cadd. split.
  - intros (s & H & X). apply sum_ok in H. destruct H as [-> _]. destruct (N.leb_spec (2 ^ 32) (0 + lengths_sum lens + n)); [discriminate|].
    injection X as <-. split; [lia|lia].
  - intros [-> H]. exists (lengths_sum lens). split; [apply sum_ok; split; [lia|right; lia]|].
    destruct (N.leb_spec (2 ^ 32) (lengths_sum lens + n)); [lia|reflexivity].
Qed.
Lemma tm_last {B} (f : bytes -> parser B) (P : B -> bytes -> Prop) (C : B -> Prop) :
  (forall s v, fst (f s []) = Ok v <-> C v /\ P v s) ->
  takes_message (pbind read_rest f) (fun v w => C v /\ fields [P v] w).
Proof. intros H. apply tm_tail. exact H. Qed.
Definition names_layout (tn sn nf : N) (x : bytes * bytes * bytes * bytes * bytes) : bytes -> Prop := fun w =>
  let '(lens, names, table, schema, file) := x in
  (nf = N.of_nat (length lens) /\ N.of_nat (length names) = lengths_sum lens + nf /\ lengths_sum lens + nf < 2 ^ 32) /\
  fields [exactly lens; exactly names; padded (tn + 1) table; padded (sn + 1) schema; padded_rest file] w.
Lemma te_sum {B} lens n (f : N -> parser B) E :
  (forall t, t = lengths_sum lens + n -> t < 2 ^ 32 -> takes_message (f t) E) -> ((lengths_sum lens + n < 2 ^ 32 -> False) -> forall v w, ~ E v w) ->
  takes_message (sum <- plift (sum_u32 0 lens) ;; t <- plift (cadd 32 sum n) ;; f t) E.
Proof.
  intros P Q. pose proof (names_len lens n) as H.
  apply tm_lift.
  - intros s Hs. apply tm_lift.
    + intros t Ht. destruct (proj1 (H t)) as [X Y]; [eauto|]. apply P; assumption.
    + intros X. apply Q. intros L. destruct (proj2 (H _) (conj eq_refl L)) as (s' & H1 & H2).
      assert (s' = s) by congruence. subst s'. exact (X _ H2).
  - intros X. apply Q. intros L. destruct (proj2 (H _) (conj eq_refl L)) as (s' & H1 & H2). exact (X _ H1).
Qed.
Lemma accepts_load : takes_message read_load load_layout.
Proof.
  unfold read_load, load_layout.
  apply (tm_field _ (is_le 4) _ ld_slave_proxy_id); [apply te_u32|intros x1].
  apply (tm_field _ (is_le 4) _ ld_exec_time); [apply te_u32|intros x2].
  apply (tm_field _ (is_le 4) _ ld_skip_lines); [apply te_u32|intros x3].
  apply (tm_field _ byte1 _ ld_table_name_len); [apply te_u8|intros x4].
  apply (tm_field _ byte1 _ ld_schema_len); [apply te_u8|intros x5].
  apply (tm_field _ (is_le 4) _ ld_num_fields); [apply te_u32|intros x6].
  apply (tm_field _ byte1 _ ld_field_term); [apply te_u8|intros x7].
  apply (tm_field _ byte1 _ ld_enclosed_by); [apply te_u8|intros x8].
  apply (tm_field _ byte1 _ ld_line_term); [apply te_u8|intros x9].
  apply (tm_field _ byte1 _ ld_line_start); [apply te_u8|intros x10].
  apply (tm_field _ byte1 _ ld_escaped_by); [apply te_u8|intros x11].
  apply (tm_field _ byte1 _ ld_opt_flags); [apply te_u8|intros x12].
  apply (tm_field _ byte1 _ ld_empty_flags); [apply te_u8|intros x13].
  unfold read_load_names.
  eapply tm_ext; [intros bs; symmetry; apply bind_assoc|].
  apply (tm_field_if _ (fun s : bytes => N.of_nat (length s) = x6) exactly _ ld_field_name_lengths); [apply te_len|intuition congruence|intros lens H1].
  eapply tm_ext with (q := sum <- plift (sum_u32 0 lens) ;; t <- plift (cadd 32 sum x6) ;; names <- read_len t ;;
     table <- (s <- read_len (x4 + 1) ;; plift (until_nul s)) ;; schema <- (s <- read_len (x5 + 1) ;; plift (until_nul s)) ;;
     file <- read_rest ;; file <- plift (until_nul file) ;;
     pret (mk_load x1 x2 x3 x4 x5 x6 x7 x8 x9 x10 x11 x12 x13 lens names table schema file)).
  { intros bs. unfold pbind, plift, pret, read_rest. destruct (sum_u32 0 lens) as [s|? |?|]; try reflexivity. destruct (cadd 32 s x6) as [t|? |?|]; try reflexivity.
    destruct (read_len t bs) as [[] r1]; try reflexivity. destruct (read_len (x4 + 1) r1) as [[y|? |?|] r2]; try reflexivity.
    destruct (until_nul y); try reflexivity. destruct (read_len (x5 + 1) r2) as [[z|? |?|] r3]; try reflexivity. destruct (until_nul z); try reflexivity.
    destruct (until_nul r3); reflexivity. }
  apply te_sum.
  2:{ intros X v w [H _]. decompose [and] H. apply X. congruence. }
  intros t Et Lt.
  apply (tm_field_if _ (fun s : bytes => N.of_nat (length s) = t) exactly _ ld_field_names); [apply te_len|intuition congruence|intros names H2].
  eapply tm_subst with (F := fun v => [padded (x4 + 1) (ld_table_name v); padded (x5 + 1) (ld_schema_name v); padded_rest (ld_file_name v)]).
  { intros v H. decompose [and] H. congruence. }
  apply (tm_field _ (padded (x4 + 1)) _ ld_table_name); [apply te_padded|intros table].
  apply (tm_field _ (padded (x5 + 1)) _ ld_schema_name); [apply te_padded|intros schema].
  apply (tm_last _ (fun v => padded_rest (ld_file_name v))). intros s v. unfold pbind, plift.
  rewrite <- (until_ok s (ld_file_name v)). destruct (until_nul s) as [file|? |?|]; cbn [pret fst]; [|split; [discriminate|intros [_ X]; discriminate]..].
  destruct v; cbn. split.
  - intros X. injection X as; subst. repeat split; try assumption; lia.
  - intros X. decompose [and] X. subst. congruence.
Qed.
Lemma accepts_new_load : takes_message read_new_load new_load_layout.
Proof.
  unfold read_new_load, new_load_layout.
  apply (tm_field _ (is_le 4) _ nl_slave_proxy_id); [apply te_u32|intros x1].
  apply (tm_field _ (is_le 4) _ nl_exec_time); [apply te_u32|intros x2].
  apply (tm_field _ (is_le 4) _ nl_skip_lines); [apply te_u32|intros x3].
  apply (tm_field _ byte1 _ nl_table_name_len); [apply te_u8|intros x4].
  apply (tm_field _ byte1 _ nl_schema_len); [apply te_u8|intros x5].
  apply (tm_field _ (is_le 4) _ nl_num_fields); [apply te_u32|intros x6].
  apply (tm_field _ byte1 _ nl_field_term_len); [apply te_u8|intros l7].
  apply (tm_field_if _ (fun s : bytes => N.of_nat (length s) = l7) exactly _ nl_field_term); [apply te_len|intuition congruence|intros x7 H7].
  apply (tm_field _ byte1 _ nl_enclosed_by_len); [apply te_u8|intros l8].
  apply (tm_field_if _ (fun s : bytes => N.of_nat (length s) = l8) exactly _ nl_enclosed_by); [apply te_len|intuition congruence|intros x8 H8].
  apply (tm_field _ byte1 _ nl_line_term_len); [apply te_u8|intros l9].
  apply (tm_field_if _ (fun s : bytes => N.of_nat (length s) = l9) exactly _ nl_line_term); [apply te_len|intuition congruence|intros x9 H9].
  apply (tm_field _ byte1 _ nl_line_start_len); [apply te_u8|intros l10].
  apply (tm_field_if _ (fun s : bytes => N.of_nat (length s) = l10) exactly _ nl_line_start); [apply te_len|intuition congruence|intros x10 H10].
  apply (tm_field _ byte1 _ nl_escaped_by_len); [apply te_u8|intros l11].
  apply (tm_field_if _ (fun s : bytes => N.of_nat (length s) = l11) exactly _ nl_escaped_by); [apply te_len|intuition congruence|intros x11 H11].
  apply (tm_field _ byte1 _ nl_opt_flags); [apply te_u8|intros x12].
  unfold read_load_names.
  eapply tm_ext; [intros bs; symmetry; apply bind_assoc|].
  apply (tm_field_if _ (fun s : bytes => N.of_nat (length s) = x6) exactly _ nl_field_name_lengths); [apply te_len|intuition congruence|intros lens H1].
  eapply tm_ext with (q := sum <- plift (sum_u32 0 lens) ;; t <- plift (cadd 32 sum x6) ;; names <- read_len t ;;
     table <- (s <- read_len (x4 + 1) ;; plift (until_nul s)) ;; schema <- (s <- read_len (x5 + 1) ;; plift (until_nul s)) ;;
     file <- read_rest ;; file <- plift (until_nul file) ;;
     pret (mk_new_load x1 x2 x3 x4 x5 x6 l7 x7 l8 x8 l9 x9 l10 x10 l11 x11 x12 lens names table schema file)).
  { intros bs. unfold pbind, plift, pret, read_rest. destruct (sum_u32 0 lens) as [s|? |?|]; try reflexivity. destruct (cadd 32 s x6) as [t|? |?|]; try reflexivity.
    destruct (read_len t bs) as [[] r1]; try reflexivity. destruct (read_len (x4 + 1) r1) as [[y|? |?|] r2]; try reflexivity.
    destruct (until_nul y); try reflexivity. destruct (read_len (x5 + 1) r2) as [[z|? |?|] r3]; try reflexivity. destruct (until_nul z); try reflexivity.
    destruct (until_nul r3); reflexivity. }
  apply te_sum.
  2:{ intros X v w [H _]. decompose [and] H. apply X. congruence. }
  intros t Et Lt.
  apply (tm_field_if _ (fun s : bytes => N.of_nat (length s) = t) exactly _ nl_field_names); [apply te_len|intuition congruence|intros names H2].
  eapply tm_subst with (F := fun v => [padded (x4 + 1) (nl_table_name v); padded (x5 + 1) (nl_schema_name v); padded_rest (nl_file_name v)]).
  { intros v H. decompose [and] H. congruence. }
  apply (tm_field _ (padded (x4 + 1)) _ nl_table_name); [apply te_padded|intros table].
  apply (tm_field _ (padded (x5 + 1)) _ nl_schema_name); [apply te_padded|intros schema].
  apply (tm_last _ (fun v => padded_rest (nl_file_name v))). intros s v. unfold pbind, plift.
  rewrite <- (until_ok s (nl_file_name v)). destruct (until_nul s) as [file|? |?|]; cbn [pret fst]; [|split; [discriminate|intros [_ X]; discriminate]..].
  destruct v; cbn. split.
  - intros X. injection X as; subst. repeat split; try assumption; lia.
  - intros X. decompose [and] X. subst. congruence.
Qed.
