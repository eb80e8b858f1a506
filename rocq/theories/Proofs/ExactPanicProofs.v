(** * Exactly when the decoders of composed messages panic *)
From Coq Require Import Lia.
From Verif Require Import Model.Base Model.BytesParser Model.LenEnc Model.Utf8 Model.Flags Model.Bitmap Model.Cmd Model.Col
  Model.Row Model.Rows Model.Event Model.EventBody
  Spec.Nums Spec.Codec Spec.Wire Spec.BitmapSpec Spec.BinlogValues Spec.Decoders Spec.Catalogue Spec.Panics
  Proofs.BaseLemmas Proofs.BytesParserProofs Proofs.CodecProofs Proofs.LenEncProofs Proofs.WireLemmas Proofs.PacketProofs Proofs.BitmapProofs
  Proofs.RowsProofs Proofs.LocalProofs Proofs.TotalProofs Proofs.PanicProofs Proofs.EventPanicProofs.
Open Scope N_scope.

(** ** Parsers and the inputs on which they panic *)
Definition pan {A} (p : parser A) (P : bytes -> panic -> Prop) : Prop := forall bs, panics_exactly (fst (p bs)) (P bs).
Lemma exactly_iff {A} (r : res A) P Q : (forall w, Q w <-> P w) -> panics_exactly r P -> panics_exactly r Q.
Proof. intros H [E NL]. split; [|exact NL]. intros w. rewrite E. symmetry. apply H. Qed.
Lemma pan_iff {A} (p : parser A) P Q : (forall bs w, Q bs w <-> P bs w) -> pan p P -> pan p Q.
Proof. intros H K bs. apply (exactly_iff _ (P bs)); [apply H|apply K]. Qed.
Lemma pan_free {A} (p : parser A) : no_panic p -> pan p (fun _ _ => False).
Proof. intros H bs. apply exact_free; [auto|apply H]. Qed.
Lemma pan_bind {A B} (p : parser A) (f : A -> parser B) P Q : pan p P -> (forall a, pan (f a) (Q a)) ->
  pan (pbind p f) (fun bs w => P bs w \/ exists a rest, p bs = (Ok a, rest) /\ Q a rest w).
Proof.
  intros HP HQ bs. destruct (HP bs) as [E NL]. unfold pbind. destruct (p bs) as [[a|e|w|] rest]; cbn [fst] in *.
  - destruct (HQ a rest) as [E2 NL2]. split; [|exact NL2]. intros w. rewrite E2. split.
    + intros H. right. exists a, rest. auto.
    + intros [H|(a' & r' & X & H)]; [apply E in H; discriminate|]. injection X as -> ->. exact H.
  - split; [|discriminate]. intros w. split; [discriminate|]. intros [H|(a' & r' & X & H)]; [apply E in H; discriminate|discriminate].
  - split; [|discriminate]. intros w'. split.
    + intros X. injection X as <-. left. apply E. reflexivity.
    + intros [H|(a' & r' & X & H)]; [|discriminate]. apply E in H. injection H as ->. reflexivity.
  - congruence.
Qed.
(** fields that are read without a panic *)
Lemma pan_field {A B} (p : parser A) (f : A -> parser B) (R : bytes -> A -> Prop) Q : no_panic p ->
  (forall bs a rest, p bs = (Ok a, rest) <-> exists u, bs = u ++ rest /\ R u a) -> (forall a, pan (f a) (Q a)) ->
  pan (pbind p f) (fun bs w => exists u a rest, bs = u ++ rest /\ R u a /\ Q a rest w).
Proof.
  intros NP HR HQ. eapply pan_iff; [|apply pan_bind; [apply pan_free; exact NP|exact HQ]]. intros bs w. split.
  - intros (u & a & rest & E & HR' & H). right. exists a, rest. split; [apply HR; exists u; auto|exact H].
  - intros [[]|(a & rest & E & H)]. apply HR in E. destruct E as (u & E & HR'). exists u, a, rest. auto.
Qed.
Lemma pan_u8 {B} (f : N -> parser B) Q : (forall b, pan (f (b2n b)) (Q b)) ->
  pan (pbind read_u8 f) (fun bs w => exists b rest, bs = b :: rest /\ Q b rest w).
Proof.
  intros H bs. unfold pbind. destruct bs as [|b bs].
  - apply exact_free; [intros w (b & r & E & _); discriminate|right; eexists; reflexivity].
  - rewrite read_u8_cons. eapply exactly_iff; [|apply H]. intros w. split; [intros (b' & r & E & K); injection E as -> ->; exact K|eauto].
Qed.
Lemma pan_len {B} n (f : bytes -> parser B) Q : (forall a, N.of_nat (length a) = n -> pan (f a) (Q a)) ->
  pan (pbind (read_len n) f) (fun bs w => exists a rest, bs = a ++ rest /\ N.of_nat (length a) = n /\ Q a rest w).
Proof.
  intros H bs. unfold pbind. destruct (read_len n bs) as [r rest] eqn:E.
  destruct (read_len_cases n bs) as [(a & r' & -> & L & E')|[e E']]; rewrite E in E'.
  - injection E' as -> ->. eapply exactly_iff; [|apply H; exact L]. intros w. split; [|intros K; exists a, r'; auto].
    intros (a' & r & E2 & L2 & K). apply app_inj_len in E2; [|unfold blen in L; lia]. destruct E2 as [-> ->]. exact K.
  - cbn [fst] in E'. subst r. apply exact_free; [|right; eexists; reflexivity].
    intros w (a & r & -> & L & _). rewrite rd_len in E by (symmetry; exact L). discriminate.
Qed.
Lemma pan_le {B} k (p : parser N) (f : N -> parser B) Q : no_panic p ->
  (forall a r, length a = k -> p (a ++ r) = (Ok (le_val a), r)) -> short_reads k p ->
  (forall a, length a = k -> pan (f (le_val a)) (Q a)) ->
  pan (pbind p f) (fun bs w => exists a rest, bs = a ++ rest /\ length a = k /\ Q a rest w).
Proof.
  intros NP P1 P2 H bs. unfold pbind. destruct (cut k bs) as [C|(a & r & -> & C)].
  - rewrite (P2 _ C). apply exact_free; [|right; eexists; reflexivity]. intros w (a & r & -> & L & _). rewrite app_length in C. lia.
  - rewrite P1 by exact C. eapply exactly_iff; [|apply H; exact C]. intros w. split; [|intros K; exists a, r; auto].
    intros (a' & r' & E & L & K). apply app_inj_len in E; [|lia]. destruct E as [-> ->]. exact K.
Qed.
Lemma pan_le_u16 {B} (f : N -> parser B) Q : (forall a, length a = 2%nat -> pan (f (le_val a)) (Q a)) ->
  pan (pbind read_le_u16 f) (fun bs w => exists a rest, bs = a ++ rest /\ length a = 2%nat /\ Q a rest w).
Proof. apply pan_le; [pt|intros; apply read_le_u16_spec; assumption|apply short_reads_all]. Qed.
Lemma pan_le_u32 {B} (f : N -> parser B) Q : (forall a, length a = 4%nat -> pan (f (le_val a)) (Q a)) ->
  pan (pbind read_le_u32 f) (fun bs w => exists a rest, bs = a ++ rest /\ length a = 4%nat /\ Q a rest w).
Proof. apply pan_le; [pt|intros; apply read_le_u32_spec; assumption|apply short_reads_all]. Qed.
Lemma pan_le_u64 {B} (f : N -> parser B) Q : (forall a, length a = 8%nat -> pan (f (le_val a)) (Q a)) ->
  pan (pbind read_le_u64 f) (fun bs w => exists a rest, bs = a ++ rest /\ length a = 8%nat /\ Q a rest w).
Proof. apply pan_le; [pt|intros; apply read_le_u64_spec; assumption|apply short_reads_all]. Qed.
Lemma pan_le_u128 {B} (f : N -> parser B) Q : (forall a, length a = 16%nat -> pan (f (le_val a)) (Q a)) ->
  pan (pbind read_le_u128 f) (fun bs w => exists a rest, bs = a ++ rest /\ length a = 16%nat /\ Q a rest w).
Proof. apply pan_le; [pt|intros; apply read_le_u128_spec; assumption|apply short_reads_all]. Qed.
Lemma pan_lift {A B} (r : res A) (f : A -> parser B) Q : (forall a, r = Ok a -> pan (f a) Q) -> r <> Loop ->
  pan (pbind (plift r) f) (fun bs w => r = Panic w \/ (exists a, r = Ok a) /\ Q bs w).
Proof.
  intros H NL bs. unfold pbind, plift. destruct r as [a|e|w|]; [| | |congruence].
  - eapply exactly_iff; [|apply (H a eq_refl)]. intros w. split; [intros [X|[_ X]]; [discriminate|exact X]|eauto].
  - apply exact_free; [|right; eexists; reflexivity]. intros w [X|[[a X] _]]; discriminate.
  - split; [|discriminate]. intros w'. split; [intros X; injection X as <-; auto|]. intros [X|[[a X] _]]; [injection X as ->; reflexivity|discriminate].
Qed.
Lemma pan_ok {A B} (a : A) (f : A -> parser B) Q : pan (f a) Q -> pan (pbind (plift (Ok a)) f) Q.
Proof. intros H bs. apply H. Qed.
Lemma pan_map {A B} (p : parser A) (f : A -> B) P : pan p P -> pan (pmap f p) P.
Proof.
  intros H. unfold pmap. eapply pan_iff; [|apply pan_bind; [exact H|intros a; apply pan_free; pt]].
  intros bs w. split; [auto|]. intros [K|(a & r & _ & [])]. exact K.
Qed.
Lemma pan_then {A B} (p : parser A) (f : A -> parser B) P : pan p P -> (forall a, no_panic (f a)) -> pan (pbind p f) P.
Proof.
  intros H F. eapply pan_iff; [|apply pan_bind; [exact H|intros a; apply pan_free, F]].
  intros bs w. split; [auto|]. intros [K|(a & r & _ & [])]. exact K.
Qed.
(** length-encoded counts *)
Lemma lenenc_fwd w n rest : dlenenc w = Some (n, []) ->
  exists l, read_len_enc_int (w ++ rest) = (Ok l, rest) /\ lei_to_u64 l = Some n.
Proof.
  destruct w as [|b a]; [discriminate|]. intros H.
  assert (D : dlenenc (b :: a) = if b2n b <? 251 then Some (b2n b, a) else if b2n b =? 252 then dle 2 a
    else if b2n b =? 253 then dle 3 a else if b2n b =? 254 then dle 8 a else None).
  { unfold dlenenc, dbind. cbn [dle]. rewrite N.mul_0_r, N.add_0_r.
    destruct (b2n b <? 251), (b2n b =? 252), (b2n b =? 253), (b2n b =? 254); reflexivity. }
  rewrite D in H. clear D. pose proof (b2n_lt b) as B.
  assert (DL : forall k l m, dle k l = Some (m, []) -> length l = k /\ le_val l = m).
  { induction k as [|k IH]; intros l m E; cbn [dle] in E.
    - injection E as <- ->. auto.
    - destruct l as [|x l]; [discriminate|]. destruct (dle k l) as [[v r]|] eqn:E2; [|discriminate]. injection E as <- ->.
      destruct (IH _ _ E2) as [<- <-]. auto. }
  unfold read_len_enc_int. cbn [app]. unfold pbind. rewrite read_u8_cons.
  destruct (N.ltb_spec (b2n b) 251) as [L|L].
  { injection H as <- ->. do 5 (match goal with |- context [?x =? ?y] => destruct (N.eqb_spec x y); [lia|] end). eexists. split; reflexivity. }
  destruct (N.eqb_spec (b2n b) 0xfb) as [E|E]; [rewrite E in H; discriminate|].
  destruct (N.eqb_spec (b2n b) 0xfc) as [E2|E2].
  { destruct (DL _ _ _ H) as [La <-]. unfold pmap, pbind. rewrite read_le_u16_spec by exact La. eexists. split; reflexivity. }
  destruct (N.eqb_spec (b2n b) 0xfd) as [E3|E3].
  { destruct (DL _ _ _ H) as [La <-]. unfold pmap, pbind. rewrite read_le_u24_spec by exact La. eexists. split; reflexivity. }
  destruct (N.eqb_spec (b2n b) 0xfe) as [E4|E4]; [|discriminate].
  destruct (DL _ _ _ H) as [La <-]. unfold pmap, pbind. rewrite read_le_u64_spec by exact La. eexists. split; reflexivity.
Qed.
Definition read_count : parser N := n <- read_len_enc_int ;; match lei_to_u64 n with Some n => pret n | None => pfail EConstraint end.
Lemma pan_count {B} (f : N -> parser B) Q : (forall n, pan (f n) (Q n)) ->
  pan (pbind read_len_enc_int (fun n => pbind (match lei_to_u64 n with Some n => pret n | None => pfail EConstraint end) f))
    (fun bs w => exists c n rest, bs = c ++ rest /\ dlenenc c = Some (n, []) /\ Q n rest w).
Proof.
  intros H bs. unfold pbind. destruct (read_len_enc_int bs) as [r rest] eqn:E.
  assert (no_panic read_len_enc_int) as NP by pt. destruct (NP bs) as [[l Hl]|[e He]]; rewrite E in *; cbn [fst] in *; subst r.
  - destruct (lei_to_u64 l) as [n|] eqn:L.
    + destruct (lenenc_inv _ _ _ E n L) as (c & -> & D & _). unfold pret. eapply exactly_iff; [|apply H]. intros w. split; [|intros K; exists c, n, rest; auto].
      intros (c' & n' & r' & E2 & D2 & K). destruct (lenenc_fwd c' n' r' D2) as (l' & E3 & L3). rewrite <- E2, E in E3. injection E3 as <- <-.
      rewrite L in L3. injection L3 as <-. exact K.
    + apply exact_free; [|right; eexists; reflexivity]. intros w (c' & n' & r' & E2 & D2 & K).
      destruct (lenenc_fwd c' n' r' D2) as (l' & E3 & L3). rewrite <- E2, E in E3. injection E3 as <- <-. congruence.
  - apply exact_free; [|right; eexists; reflexivity]. intros w (c' & n' & r' & E2 & D2 & K).
    destruct (lenenc_fwd c' n' r' D2) as (l' & E3 & L3). rewrite <- E2, E in E3. discriminate.
Qed.

(** ** Events *)
Lemma event_type_known b : (b2n b <= 38 /\ exists t, event_type_of (b2n b) = Ok t) \/ (38 < b2n b /\ exists e, event_type_of (b2n b) = Err e).
Proof.
  destruct b; first [left; split; [vm_compute; discriminate|eexists; reflexivity]|right; split; [vm_compute; reflexivity|eexists; reflexivity]].
Qed.
Lemma rd4 x y z u r : read_le_u32 (x :: y :: z :: u :: r) = (Ok (le_val [x; y; z; u]), r).
Proof. apply (read_le_u32_spec r [x; y; z; u]). reflexivity. Qed.
Lemma rd2 x y r : read_le_u16 (x :: y :: r) = (Ok (le_val [x; y]), r).
Proof. apply (read_le_u16_spec r [x; y]). reflexivity. Qed.
Lemma header_exact bs :
  (whole_header bs /\ exists h, read_event_header bs = (Ok h, skipn 19 bs) /\ h_event_len h = announced_length bs) \/
  (~ whole_header bs /\ exists e rest, read_event_header bs = (Err e, rest)).
Proof.
  destruct (header_cases bs) as [(h & rest & E & Eh & L)|[e E]].
  - left. pose proof (header_rest _ _ _ E) as ->. split; [|exists h; auto]. split; [exact L|].
    unfold read_event_header in E. apply pbind_inv in E. destruct E as (h1 & mid & E & _). unfold read_event_header_v1 in E.
    apply pbind_inv in E. destruct E as (ts & m1 & E1 & E). apply (fixed_inv 4 read_le_u32 le_val) in E1; [|intros; apply read_le_u32_spec; assumption|apply short_reads_all].
    destruct E1 as (a & -> & La & _). apply pbind_inv in E. destruct E as (c & m2 & E1 & E). apply read_u8_inv in E1. destruct E1 as (b & -> & ->).
    apply pbind_inv in E. destruct E as (sid & m3 & _ & E). apply pbind_inv in E. destruct E as (len & m4 & _ & E). apply pbind_inv in E. destruct E as (t & m5 & E & _).
    unfold plift in E. injection E as E _. do 4 (destruct a as [|? a]; [discriminate|]). destruct a; [|discriminate]. cbn [app nth].
    destruct (event_type_known b) as [[H _]|[_ [e X]]]; [exact H|]. rewrite X in E. discriminate.
  - right. split; [|destruct (read_event_header bs) as [r rest]; cbn [fst] in E; subst r; eauto]. intros [L C].
    destruct (split_bytes 4 (length bs - 4) bs ltac:(lia)) as (a1 & b1 & -> & L1 & L2). destruct b1 as [|c b1]; [cbn in L2; rewrite app_length in L; cbn in L; lia|].
    do 4 (destruct a1 as [|? a1]; [discriminate|]). destruct a1; [|discriminate]. cbn [app nth length] in *.
    do 14 (destruct b1 as [|? b1]; [cbn in L; lia|]).
    destruct (event_type_known c) as [[_ [t X]]|[H _]]; [|lia]. revert E.
    unfold read_event_header, read_event_header_v1, pbind.
    rewrite rd4, read_u8_cons, !rd4. unfold plift. rewrite X. unfold pret. rewrite rd4, rd2. discriminate.
Qed.
Lemma data_len_cases h : (h_event_len h < 19 /\ data_len h = Panic PArith) \/ (19 <= h_event_len h /\ data_len h = Ok (h_event_len h - 19)).
Proof. unfold data_len, csub. destruct (N.ltb_spec (h_event_len h) 19); [left|right]; split; auto. Qed.
Lemma exact_arith {A} (r : res A) (P : Prop) : (P /\ r = Panic PArith) \/ (~ P /\ returns r) -> panics_exactly r (fun w => w = PArith /\ P).
Proof.
  intros [[H ->]|[H R]].
  - split; [|discriminate]. intros w. split; [intros E; injection E as <-; auto|intros [-> _]; reflexivity].
  - apply exact_free; [|exact R]. intros w [_ X]. contradiction.
Qed.
Lemma header_step {A} (k : event_header -> N -> parser A) bs h n : read_event_header bs = (Ok h, skipn 19 bs) -> h_event_len h = n ->
  pbind read_event_header (fun header => pbind (plift (data_len header)) (k header)) bs =
  if n <? 19 then (Panic PArith, skipn 19 bs) else k h (n - 19) (skipn 19 bs).
Proof. intros E <-. unfold pbind, plift, data_len, csub. rewrite E. destruct (h_event_len h <? 19); reflexivity. Qed.
Lemma header_fails {A} (k : event_header -> parser A) bs e r : read_event_header bs = (Err e, r) -> pbind read_event_header k bs = (Err e, r).
Proof. intros E. unfold pbind. rewrite E. reflexivity. Qed.
Lemma len_step {A} n (k : bytes -> parser A) bs : (exists a rest, bs = a ++ rest /\ blen a = n /\ pbind (read_len n) k bs = k a rest) \/
  (N.of_nat (length bs) < n /\ exists e r, pbind (read_len n) k bs = (Err e, r)).
Proof.
  destruct (cut (N.to_nat n) bs) as [C|(a & r & -> & C)].
  - right. split; [lia|]. unfold pbind. destruct (read_len_cases n bs) as [(a & r & -> & L & _)|[e Ee]]; [unfold blen in L; rewrite app_length in C; lia|].
    destruct (read_len n bs) as [x r]. cbn [fst] in Ee. subst x. eauto.
  - left. exists a, r. split; [reflexivity|]. assert (blen a = n) as L by (unfold blen; lia). split; [exact L|]. unfold pbind. rewrite rd_len by (symmetry; exact L). reflexivity.
Qed.
Lemma skip_exact self bs : panics_exactly (fst (skip_event self bs)) (fun w => w = PArith /\ whole_header bs /\ announced_length bs < 19).
Proof.
  apply exact_arith. unfold skip_event. destruct (header_exact bs) as [(W & h & E & Eh)|(W & e & r & E)].
  - rewrite (header_step (fun _ len => read_len len ;;; pret tt) bs h _ E Eh). destruct (N.ltb_spec (announced_length bs) 19) as [L|L]; [left|right].
    + auto.
    + split; [lia|]. apply (no_panic_at (read_len (announced_length bs - 19) ;;; pret tt)). pt.
  - rewrite (header_fails _ bs e r E). right. split; [tauto|right; eexists; reflexivity].
Qed.
Lemma sealed_raw crc raw rest : sealed crc (blen raw) (raw ++ rest) <-> exists body sum, raw = body ++ sum /\ length sum = 4%nat /\ le_val sum = crc body.
Proof.
  unfold sealed, blen. rewrite Nat2N.id, firstn_app, Nat.sub_diag, firstn_O, app_nil_r, firstn_all. split; [intros [_ H]; exact H|].
  intros H. split; [rewrite app_length; lia|exact H].
Qed.
Lemma check_cases crc bs : whole_header bs ->
  let n := announced_length bs in
  (n < 4 /\ check_checksum crc bs = (Panic PArith, bs)) \/
  (4 <= n /\ sealed crc n bs /\ check_checksum crc bs = (Ok tt, bs)) \/
  (4 <= n /\ ~ sealed crc n bs /\ exists e, check_checksum crc bs = (Err e, bs)).
Proof.
  intros W n. unfold check_checksum, pbind, plift, csub. rewrite !peek_step. destruct (header_exact bs) as [(_ & h & E & Eh)|(X & _)]; [|contradiction].
  rewrite E. cbn [fst]. rewrite !peek_step, Eh. fold n.
  destruct (read_len_cases n bs) as [(raw & r & B & Lr & ->)|[e Ee]]; cbn [fst].
  - rewrite Lr. destruct (N.ltb_spec n 4) as [L|L]; [left; auto|right]. unfold split_at. unfold blen in Lr.
    destruct (split_bytes (N.to_nat (n - 4)) 4 raw ltac:(lia)) as (body & sum & -> & Lb & Ls).
    rewrite skipn_app, firstn_app, <- Lb, Nat.sub_diag, skipn_all, firstn_all, firstn_O, app_nil_r. cbn [app skipn].
    pose proof (read_le_u32_spec [] sum Ls) as RS. rewrite app_nil_r in RS. rewrite RS. cbn [fst].
    assert (sealed crc n bs <-> le_val sum = crc body) as S.
    { subst bs. rewrite <- Lr. change (N.of_nat (length (body ++ sum))) with (blen (body ++ sum)). rewrite sealed_raw. split; [|intros K; exists body, sum; auto].
      intros (b2 & s2 & X & Ls2 & K). apply app_inj_len in X; [destruct X as [-> ->]; exact K|]. apply (f_equal (@length _)) in X. rewrite !app_length in X. lia. }
    destruct (N.eqb_spec (le_val sum) (crc body)) as [Q|Q].
    + left. split; [exact L|]. split; [apply S; exact Q|reflexivity].
    + right. split; [exact L|]. split; [rewrite S; exact Q|eexists; reflexivity].
  - rewrite Ee. destruct (N.ltb_spec n 4) as [L|L].
    + exfalso. destruct (cut (N.to_nat n) bs) as [C|(a & r & -> & C)]; [destruct W; lia|]. rewrite rd_len in Ee by (unfold blen; lia). discriminate.
    + right. right. split; [exact L|]. split; [|eexists; reflexivity]. intros [K _].
      destruct (cut (N.to_nat n) bs) as [C|(a & r & -> & C)]; [lia|]. rewrite rd_len in Ee by (unfold blen; lia). discriminate.
Qed.
Lemma parse_exact crc self v bs :
  panics_exactly (fst (parse_event crc self v bs)) (fun w => w = PArith /\ event_panics crc (p_checksum self) v bs).
Proof.
  apply exact_arith. unfold event_panics. cbv zeta. destruct (header_exact bs) as [(W & h & E & Eh)|(W & e & r & E)].
  2:{ right. split; [tauto|]. unfold parse_event. destruct (p_checksum self && v).
      - right. exists e. unfold pbind at 1. unfold check_checksum. unfold pbind at 1. rewrite peek_step, E. reflexivity.
      - right. exists e. unfold pbind at 1. unfold pret at 1. unfold pbind at 1. rewrite E. reflexivity. }
  set (n := announced_length bs) in *.
  (* the part after the check *)
  set (tail := header <- read_event_header ;;
    len <- plift (data_len header) ;;
    data <- read_len len ;;
    data <- (if p_checksum self then n <- plift (csub (blen data) 4) ;; pret (fst (split_at n data)) else pret data) ;;
    match event_kind_of (h_type header) with Some k => pret (Some (mk_event k header data)) | None => pret None end).
  assert (T : ((n < 19 \/ p_checksum self = true /\ n < 23 /\ n <= N.of_nat (length bs)) /\ fst (tail bs) = Panic PArith) \/
              (~ (n < 19 \/ p_checksum self = true /\ n < 23 /\ n <= N.of_nat (length bs)) /\ returns (fst (tail bs)))).
  { unfold tail.
    rewrite (header_step (fun header len => data <- read_len len ;;
      data <- (if p_checksum self then n <- plift (csub (blen data) 4) ;; pret (fst (split_at n data)) else pret data) ;;
      match event_kind_of (h_type header) with Some k => pret (Some (mk_event k header data)) | None => pret None end) bs h n E Eh).
    destruct (N.ltb_spec n 19) as [L|L]; [left; auto|]. destruct W as [W _].
    match goal with |- context [pbind (read_len (n - 19)) ?k _] => destruct (len_step (n - 19) k (skipn 19 bs)) as [(data & r & B & C & ->)|(C & e & r & ->)] end.
    2:{ right. split; [rewrite skipn_length in C; lia|right; eexists; reflexivity]. }
    apply (f_equal (@length _)) in B. rewrite app_length, skipn_length in B. unfold blen in C. destruct (p_checksum self).
    - unfold pbind, plift, csub, blen. destruct (N.ltb_spec (N.of_nat (length data)) 4) as [X|X]; [left|right].
      + split; [right; split; [reflexivity|lia]|reflexivity].
      + split; [lia|]. unfold pret. destruct (event_kind_of (h_type h)); left; eexists; reflexivity.
    - right. split; [intros [X|[X _]]; [lia|discriminate]|]. unfold pbind, pret. destruct (event_kind_of (h_type h)); left; eexists; reflexivity. }
  change (parse_event crc self v) with (pbind (if p_checksum self && v then check_checksum crc else pret tt) (fun _ => tail)).
  destruct (p_checksum self) eqn:P; [|cbn [andb]].
  - destruct v; cbn [andb].
    + unfold pbind. destruct (check_cases crc bs W) as [[L K]|[(L & S & K)|(L & S & [e K])]]; rewrite K; fold n in L.
      * left. auto.
      * fold n in S. destruct T as [[T1 T2]|[T1 T2]]; [left|right].
        -- split; [|exact T2]. split; [exact W|right]. split; [lia|exact S].
        -- split; [|exact T2]. intros [_ [X|[X _]]]; [lia|]. apply T1. destruct S as [S _]. destruct (N.ltb_spec n 19); [left; assumption|right; auto].
      * right. fold n in S. split; [|right; eexists; reflexivity]. intros [_ [X|[_ X]]]; [lia|contradiction].
    + unfold pbind, pret. destruct T as [[T1 T2]|[T1 T2]]; [left|right]; (split; [|exact T2]).
      * split; [exact W|]. destruct T1 as [X|[_ X]]; auto.
      * intros [_ X]. apply T1. destruct X as [X|X]; auto.
  - unfold pbind, pret. destruct T as [[T1 T2]|[T1 T2]]; [left|right]; (split; [|exact T2]).
    + split; [exact W|]. destruct T1 as [X|[X _]]; [exact X|discriminate].
    + intros [_ X]. apply T1. auto.
Qed.
Lemma checksum_exact crc self bs : panics_exactly (checksum_event crc self bs)
  (fun w => w = PArith /\ p_checksum self = true /\ whole_header bs /\ announced_length bs < 4).
Proof.
  apply exact_arith. unfold checksum_event. destruct (p_checksum self); cbn [negb]; [|right; split; [intros (X & _); discriminate|right; eexists; reflexivity]].
  destruct (header_exact bs) as [(W & h & E & Eh)|(W & e & r & E)]; rewrite E; cbn [fst rbind]; [|right; split; [tauto|right; eexists; reflexivity]].
  rewrite Eh. set (n := announced_length bs). destruct (cut (N.to_nat n) bs) as [C|(raw & r & B & C)].
  - destruct (read_len_cases n bs) as [(d & r & -> & Ld & _)|[e ->]]; [unfold blen in Ld; rewrite app_length in C; lia|].
    right. split; [|right; eexists; reflexivity]. destruct W. lia.
  - rewrite B, rd_len by (unfold blen; lia). cbn [fst rbind]. unfold csub, blen. destruct (N.ltb_spec (N.of_nat (length raw)) 4) as [X|X]; [left|right].
    + split; [|reflexivity]. rewrite <- B. repeat split; try exact (proj1 W); try exact (proj2 W). lia.
    + split; [intros (_ & _ & Y); lia|]. cbn [rbind]. unfold split_at.
      assert (no_panic read_le_u32) as NP by pt. destruct (NP (skipn (N.to_nat (N.of_nat (length raw) - 4)) raw)) as [[x ->]|[x ->]]; cbn [rbind]; [|right; eexists; reflexivity].
      destruct (_ =? _); [left|right]; eexists; reflexivity.
Qed.
Lemma from_fde_exact bs : panics_exactly (fst (from_fde_bytes bs)) (fde_event_panics bs).
Proof.
  unfold fde_event_panics, from_fde_bytes. unfold pbind at 1. destruct (header_exact bs) as [(W & h & E & Eh)|(W & e & r & E)]; rewrite E.
  2:{ apply exact_free; [tauto|right; eexists; reflexivity]. }
  set (n := announced_length bs) in *. unfold plift at 1. unfold pbind at 1. destruct (data_len_cases h) as [[L ->]|[L ->]]; rewrite Eh in *.
  { split; [|discriminate]. intros w. split; [intros X; injection X as <-; auto|]. intros [_ [[-> _]|[X _]]]; [reflexivity|lia]. }
  unfold pbind at 1. destruct W as [W W2]. destruct (cut (N.to_nat (n - 19)) (skipn 19 bs)) as [C|(data & r & B & C)].
  - destruct (read_len_cases (n - 19) (skipn 19 bs)) as [(d & r & B & Ld & _)|[e Ee]].
    { unfold blen in Ld. rewrite B, app_length in C. lia. }
    destruct (read_len (n - 19) (skipn 19 bs)). cbn [fst] in *. subst. rewrite skipn_length in C.
    apply exact_free; [|right; eexists; reflexivity]. intros w [_ [[_ X]|(_ & X & _)]]; lia.
  - rewrite B, rd_len by (unfold blen; lia).
    rewrite firstn_app, <- C, Nat.sub_diag, firstn_O, app_nil_r, firstn_all. apply (f_equal (@length _)) in B. rewrite app_length, skipn_length in B.
    destruct (fde_exact data) as [P NL]. destruct (read_fde data) as [[d|e|w|] raw] eqn:Ef; cbn [fst] in *; unfold plift, pbind.
    + apply exact_free.
      * intros w [_ [[_ X]|(_ & _ & X)]]; [lia|]. apply P in X. discriminate.
      * destruct (fde_checksum_flag d =? 1); [|left; eexists; reflexivity]. destruct (blen raw <? 4); [right; eexists; reflexivity|].
        assert (no_panic read_le_u32) as NP by pt. destruct (NP raw) as [[x ->]|[x ->]]; [left|right]; eexists; reflexivity.
    + apply exact_free; [|right; eexists; reflexivity]. intros w [_ [[_ X]|(_ & _ & X)]]; [lia|]. apply P in X. discriminate.
    + split; [|discriminate]. intros w'. split.
      * intros X. injection X as <-. split; [split; assumption|right]. split; [exact L|]. split; [lia|]. apply P. reflexivity.
      * intros [_ [[_ X]|(_ & _ & X)]]; [lia|]. apply P in X. injection X as ->. reflexivity.
    + congruence.
Qed.

(** ** Rows of a result set *)
Lemma pan_binary_value ct : pan (read_binary_value ct) (fun bs w => w = PArith /\ binary_value_panics ct bs).
Proof. intros bs. apply binary_value_exact. Qed.
Lemma cells_iff null i ct cts bs : cells_panic null i (ct :: cts) bs <->
  if null i then cells_panic null (S i) cts bs
  else binary_value_panics ct bs \/ exists v rest, read_binary_value ct bs = (Ok v, rest) /\ cells_panic null (S i) cts rest.
Proof.
  split.
  - intros H. inversion H; subst; match goal with E : null i = _ |- _ => rewrite E end; try assumption.
    + left. split; auto.
    + right. eauto.
  - destruct (null i) eqn:E; intros H; [apply cp_null; assumption|].
    destruct H as [[-> H]|(v & rest & H1 & H2)]; [apply cp_here; assumption|]. eapply cp_value; eassumption.
Qed.
Lemma pan_binary_cols bits cts : forall idx i, idx = (i + 2)%nat -> (idx + length cts <= 8 * length bits)%nat ->
  pan (read_binary_cols cts bits idx) (fun bs w => w = PArith /\ cells_panic (fun i => bit bits (i + 2)) i cts bs).
Proof.
  induction cts as [|ct cts IH]; intros idx i -> L; cbn [read_binary_cols].
  - eapply pan_iff; [|apply pan_free; pt]. intros bs w. split; [|tauto]. intros [_ H]. inversion H.
  - cbn [length] in L. rewrite bm_next_some by lia. apply pan_ok.
    eapply pan_iff.
    2:{ apply (pan_bind _ _ (fun bs w => if bit bits (i + 2) then False else w = PArith /\ binary_value_panics ct bs)).
        - destruct (bit bits (i + 2)); [apply pan_free; pt|apply pan_binary_value].
        - intros v. apply pan_then; [apply (IH (S (i + 2)) (S i)); [reflexivity|cbn; lia]|]. intros; pt. }
    intros bs w. cbv beta. rewrite cells_iff. cbv beta. destruct (bit bits (i + 2)) eqn:E.
    + split; [intros [-> H]; right; exists BNull, bs; split; [reflexivity|auto]|]. intros [[]|(a & rest & H1 & H2)]. injection H1 as _ <-. exact H2.
    + split.
      * intros [-> [H|(v & rest & H1 & H2)]]; [left; auto|]. right. exists v, rest. auto.
      * intros [[-> H]|(v & rest & H1 & [-> H2])]; [auto|]. split; [reflexivity|]. right. eauto.
Qed.
Lemma binary_row_exact cts bs : panics_exactly (fst (read_binary_row cts bs)) (fun w => w = PArith /\ binary_row_panics cts bs).
Proof.
  revert bs. change (pan (read_binary_row cts) (fun bs w => w = PArith /\ binary_row_panics cts bs)).
  unfold read_binary_row. cbv zeta. eapply pan_iff.
  2:{ apply (pan_u8 _ (fun _ bs w => exists a rest, bs = a ++ rest /\ N.of_nat (length a) = N.shiftr (N.of_nat (length cts) + 7 + 2) 3 /\
        w = PArith /\ cells_panic (fun i => bit a (i + 2)) 0 cts rest)).
      intros b. apply (pan_len _ _ (fun a rest w => w = PArith /\ cells_panic (fun i => bit a (i + 2)) 0 cts rest)). intros a L.
      apply pan_binary_cols; [reflexivity|]. rewrite N.shiftr_div_pow2 in L. change (2 ^ 3) with 8 in L. lia. }
  intros bs w. rewrite N.shiftr_div_pow2. change (2 ^ 3) with 8.
  assert (forall a : bytes, length a = ((length cts + 9) / 8)%nat <-> N.of_nat (length a) = (N.of_nat (length cts) + 7 + 2) / 8) as Q.
  { intros a. split; intros H; lia. }
  split.
  - intros [-> (b & bm & vs & -> & L & H)]. exists b, (bm ++ vs). split; [reflexivity|]. exists bm, vs. split; [reflexivity|]. split; [apply Q; exact L|auto].
  - intros (b & r & -> & bm & vs & -> & L & -> & H). split; [reflexivity|]. exists b, bm, vs. split; [reflexivity|]. split; [apply Q; exact L|exact H].
Qed.

(** ** Table maps *)
Definition type_size (ct : column_type) : option nat :=
  match ct with
  | TTimestamp | TTime | TDateTime => None
  | TFloat | TDouble | TTimestamp2 | TTime2 | TDateTime2 | TTinyBlob | TMediumBlob | TLongBlob | TBlob | TGeometry => Some 1%nat
  | TBit | TNewDecimal | TVarchar | TVarString | TString => Some 2%nat
  | _ => Some 0%nat
  end.
Definition type_panics (ct : column_type) : bool := match ct with TTimestamp | TTime | TDateTime => true | _ => false end.
Lemma code_cases b :
  (exists ct, column_type_of (b2n b) = Ok ct /\ metadata_size b = type_size ct /\ (b = xfe <-> ct = TString) /\
     (In (b2n b) [7; 11; 12] <-> type_panics ct = true)) \/
  ((exists e, column_type_of (b2n b) = Err e) /\ metadata_size b = None /\ b <> xfe /\ ~ In (b2n b) [7; 11; 12]).
Proof.
  destruct b;
    first [right; split; [eexists; reflexivity|split; [reflexivity|split; [discriminate|vm_compute; intros H; decompose [or] H; discriminate || contradiction]]]
          |left; eexists; split; [reflexivity|split; [reflexivity|split; split; intros H; vm_compute in H |- *; try discriminate; try reflexivity; try tauto;
             decompose [or] H; discriminate || contradiction]]].
Qed.
Definition string_meta (real_type field_len : N) : parser column_meta :=
  match N.lor real_type 0xf0 with
  | 0xf7 => pret (MEnum field_len)
  | 0xfe => pret (MString (N.shiftl (N.lxor (N.land (N.shiftr real_type 4) 3) 3) 8 + field_len))
  | _ => ppanic PUnimplemented
  end.
Lemma string_meta_cases b n : (char_type b /\ exists m, string_meta (b2n b) n = pret m) \/ (~ char_type b /\ string_meta (b2n b) n = ppanic PUnimplemented).
Proof.
  destruct b; first [left; split; [vm_compute; tauto|eexists; reflexivity]|right; split; [vm_compute; intros [H|H]; discriminate|reflexivity]].
Qed.
Lemma meta_panics b ct : column_type_of (b2n b) = Ok ct -> pan (read_column_meta ct) (fun bs w => w = PUnimplemented /\ column_panics b bs).
Proof.
  intros E. destruct (code_cases b) as [(ct' & E' & _ & S & P)|([e E'] & _)]; [|congruence]. rewrite E in E'. injection E' as <-.
  unfold column_panics. destruct ct;
    try (eapply pan_iff; [|apply pan_free; cbn [read_column_meta]; pt]; intros bs w; split; [|tauto]; intros [_ [H|[H _]]];
         [apply P in H; discriminate|apply S in H; discriminate]).
  1-3: intros bs; cbn [read_column_meta]; unfold ppanic; cbn [fst]; (split; [|discriminate]); intros w; split;
       [intros H; injection H as <-; split; [reflexivity|left; apply P; reflexivity]|intros [-> _]; reflexivity].
  assert (b = xfe) as -> by (apply S; reflexivity). clear. change (read_column_meta TString) with (t <- read_u8 ;; n <- read_u8 ;; string_meta t n).
  eapply pan_iff.
  2:{ apply (pan_u8 _ (fun b bs w => exists c rest, bs = c :: rest /\ w = PUnimplemented /\ ~ char_type b)). intros b.
      apply (pan_u8 _ (fun _ _ w => w = PUnimplemented /\ ~ char_type b)). intros c bs.
      destruct (string_meta_cases b (b2n c)) as [[H [m ->]]|[H ->]].
      - apply exact_free; [tauto|left; eexists; reflexivity].
      - split; [|discriminate]. intros w. cbn. split; [intros X; injection X as <-; auto|intros [-> _]; reflexivity]. }
  intros bs w. split.
  - intros [-> [H|(_ & b & c & rest & -> & H)]]; [exfalso; vm_compute in H; decompose [or] H; discriminate || contradiction|]. exists b, (c :: rest). split; [reflexivity|]. exists c, rest. auto.
  - intros (b & r & -> & c & rest & -> & -> & H). split; [reflexivity|]. right. split; [reflexivity|]. exists b, c, rest. auto.
Qed.
Definition own_metadata (b : byte) (own : bytes) : Prop := metadata_size b = Some (length own) /\ (b = xfe -> char_type (hd x00 own)).
Lemma meta_reads b ct bs m rest : column_type_of (b2n b) = Ok ct -> read_column_meta ct bs = (Ok m, rest) -> exists own, bs = own ++ rest /\ own_metadata b own.
Proof.
  intros E H. destruct (code_cases b) as [(ct' & E' & Z & S & P)|([e E'] & _)]; [|congruence]. rewrite E in E'. injection E' as <-.
  unfold own_metadata. rewrite Z.
  assert (X : ct <> TString -> b <> xfe) by (intros K L; apply K, S, L).
  destruct ct; cbn [read_column_meta type_size] in *; try discriminate;
    try (injection H as _ <-; exists []; split; [reflexivity|split; [reflexivity|intros K; apply X in K; [contradiction|discriminate]]]);
    try (apply pmap_inv in H; destruct H as (v & H & _);
         first [apply read_u8_inv in H; destruct H as (c & -> & _); exists [c]
               |apply (fixed_inv 2 read_le_u16 le_val) in H; [|intros; apply read_le_u16_spec; assumption|apply short_reads_all]; destruct H as (a & -> & La & _); exists a];
         (split; [reflexivity|split; [rewrite ?La; reflexivity|intros K; apply X in K; [contradiction|discriminate]]]));
    apply pbind_inv in H; destruct H as (v & mid & H1 & H); apply read_u8_inv in H1; destruct H1 as (b1 & -> & ->);
    apply pbind_inv in H; destruct H as (v2 & mid2 & H1 & H); apply read_u8_inv in H1; destruct H1 as (b2 & -> & ->);
    try (injection H as _ <-; exists [b1; b2]; split; [reflexivity|split; [reflexivity|intros K; apply X in K; [contradiction|discriminate]]]).
  change (string_meta (b2n b1) (b2n b2) mid2 = (Ok m, rest)) in H. destruct (string_meta_cases b1 (b2n b2)) as [[K [m' E']]|[_ E']]; rewrite E' in H; [|discriminate].
  injection H as _ <-. exists [b1; b2]. split; [reflexivity|]. split; [reflexivity|]. intros _. exact K.
Qed.
Lemma meta_read b own rest : own_metadata b own -> exists ct m, column_type_of (b2n b) = Ok ct /\ read_column_meta ct (own ++ rest) = (Ok m, rest).
Proof.
  intros [Z C]. destruct (code_cases b) as [(ct & E & Z' & S & P)|(_ & Z' & _)]; [|congruence]. exists ct. rewrite Z in Z'.
  destruct ct; cbn [type_size] in Z'; try discriminate; injection Z' as L;
    repeat (destruct own as [|? own]; try discriminate); cbn [app read_column_meta];
    unfold pmap, pbind; rewrite ?read_u8_cons, ?rd2; try (eexists; split; [exact E|reflexivity]).
  specialize (C (proj2 S eq_refl)). cbn [hd] in C.
  match goal with |- exists m, _ /\ ?t = _ => change (exists m, column_type_of (b2n b) = Ok TString /\ string_meta (b2n b0) (b2n b1) rest = (Ok m, rest)) end.
  destruct (string_meta_cases b0 (b2n b1)) as [[_ [m ->]]|[K _]]; [|contradiction]. exists m. split; [exact E|reflexivity].
Qed.
Definition metas_panic (cols meta : bytes) : Prop :=
  exists front code back read left, cols = front ++ code :: back /\ meta = read ++ left /\ metadata front read /\ column_panics code left.
Lemma metas_panic_cons c cols meta : metas_panic (c :: cols) meta <->
  column_panics c meta \/ exists own rest, meta = own ++ rest /\ own_metadata c own /\ metas_panic cols rest.
Proof.
  split.
  - intros (front & code & back & read & left & E & -> & M & H). destruct front as [|f front]; cbn [app] in E; injection E as -> ->.
    + inversion M; subst. left. exact H.
    + right. inversion M; subst. exists own, (meta ++ left). rewrite <- app_assoc. split; [reflexivity|]. split; [split; assumption|].
      exists front, code, back, meta, left. auto.
  - intros [H|(own & rest & -> & [O1 O2] & (front & code & back & read & left & -> & -> & M & H))].
    + exists [], c, cols, [], meta. repeat split; [constructor|exact H].
    + exists (c :: front), code, back, (own ++ read), left. split; [reflexivity|]. split; [apply app_assoc|]. split; [|exact H]. constructor; assumption.
Qed.
Lemma pan_metas defs n : forall i, (i + n = length defs)%nat ->
  pan (read_column_metas_loop n i defs) (fun bs w => w = PUnimplemented /\ metas_panic (skipn i defs) bs).
Proof.
  induction n as [|n IH]; intros i L; cbn [read_column_metas_loop].
  - eapply pan_iff; [|apply pan_free; pt]. intros bs w. split; [|tauto]. intros [_ (f & c & b & r & l & E & _)]. rewrite skipn_all2 in E by lia. destruct f; discriminate.
  - rewrite bget_nth by lia. apply pan_ok. set (b := nth i defs x00).
    assert (skipn i defs = b :: skipn (S i) defs) as ->.
    { rewrite <- (firstn_skipn i defs) at 1. unfold b. clear -L. revert i L. induction defs as [|x d IH]; intros i L; [cbn in L; lia|].
      destruct i as [|i]; [reflexivity|]. cbn [length] in L. specialize (IH i ltac:(lia)). cbn [firstn skipn app nth] in *. exact IH. }
    destruct (column_type_of (b2n b)) as [ct|e|p|] eqn:E; try (destruct (column_type_returns (b2n b)) as [[x X]|[x X]]; rewrite X in E; discriminate).
    + apply pan_ok. eapply pan_iff.
      2:{ apply (pan_bind _ _ (fun bs w => w = PUnimplemented /\ column_panics b bs)); [apply meta_panics; exact E|]. intros m. apply pan_then; [apply (IH (S i)); lia|intros; pt]. }
      intros bs w. rewrite metas_panic_cons. split.
      * intros [-> [H|(own & rest & -> & O & H)]]; [left; auto|]. right. destruct (meta_read b own rest O) as (ct' & m & E2 & E3). rewrite E in E2. injection E2 as <-. exists m, rest. auto.
      * intros [[-> H]|(m & rest & H1 & -> & H2)]; [auto|]. split; [reflexivity|]. right. destruct (meta_reads _ _ _ _ _ E H1) as (own & -> & O). exists own, rest. auto.
    + eapply pan_iff; [|apply pan_free; intros bs; right; eexists; reflexivity]. intros bs w. split; [|tauto]. intros [_ H]. apply metas_panic_cons in H.
      destruct (code_cases b) as [(ct & E2 & _)|(_ & Z & X & P)]; [congruence|]. destruct H as [[H|[H _]]|(own & rest & _ & [O _] & _)]; [contradiction|contradiction|congruence].
Qed.
Lemma of_raw_exact raw : rtm_col_cnt raw = N.of_nat (length (rtm_col_defs raw)) -> N.of_nat (length (rtm_col_defs raw)) < 2 ^ 61 ->
  panics_exactly (table_map_of_raw raw) (fun w => utf8_valid (rtm_schema_name raw) = true /\ utf8_valid (rtm_table_name raw) = true /\
    w = PUnimplemented /\ metas_panic (rtm_col_defs raw) (rtm_col_meta_defs raw)).
Proof.
  intros Ec Lc. unfold table_map_of_raw, from_utf8.
  destruct (utf8_valid (rtm_schema_name raw)); cbn [rbind]; [|apply exact_free; [intros w (X & _); discriminate|right; eexists; reflexivity]].
  destruct (utf8_valid (rtm_table_name raw)); cbn [rbind]; [|apply exact_free; [intros w (_ & X & _); discriminate|right; eexists; reflexivity]].
  unfold read_column_metas, pbind, plift, with_capacity. rewrite Ec. change (2 ^ 61) with 2305843009213693952 in Lc. change (2 ^ 63) with 9223372036854775808.
  destruct (N.leb_spec 9223372036854775808 (4 * N.of_nat (length (rtm_col_defs raw)))) as [X|X]; [lia|]. rewrite Nat2N.id.
  destruct (pan_metas (rtm_col_defs raw) (length (rtm_col_defs raw)) 0 eq_refl (rtm_col_meta_defs raw)) as [P NL]. cbn [skipn] in P.
  destruct (read_column_metas_loop _ 0 (rtm_col_defs raw) (rtm_col_meta_defs raw)) as [[l|e|w|] r]; cbn [fst rbind] in *; [| | |congruence].
  - apply exact_free; [|left; eexists; reflexivity]. intros w (_ & _ & K). apply P in K. discriminate.
  - apply exact_free; [|right; eexists; reflexivity]. intros w (_ & _ & K). apply P in K. discriminate.
  - split; [|discriminate]. intros w'. split.
    + intros K. injection K as <-. split; [reflexivity|]. split; [reflexivity|]. apply P. reflexivity.
    + intros (_ & _ & K). apply P in K. injection K as ->. reflexivity.
Qed.
Lemma read_len1_ok b r : read_len 1 (b :: r) = (Ok [b], r).
Proof. apply (rd_len r [b] 1). reflexivity. Qed.
Lemma raw_reads n1 schema f1 n2 table f2 count cols size meta bitmap rest :
  N.of_nat (length schema) = b2n n1 -> N.of_nat (length table) = b2n n2 ->
  dlenenc count = Some (N.of_nat (length cols), []) -> dlenenc size = Some (N.of_nat (length meta), []) ->
  length bitmap = ((length cols + 7) / 8)%nat -> N.of_nat (length cols) < 2 ^ 61 ->
  read_raw_table_map (n1 :: schema ++ f1 :: n2 :: table ++ f2 :: count ++ cols ++ size ++ meta ++ bitmap ++ rest) =
    (Ok (mk_rtm schema table (N.of_nat (length cols)) cols meta bitmap), rest).
Proof.
  intros L1 L2 D1 D2 L3 Lc. unfold read_raw_table_map. rewrite (pbind_ok _ _ _ _ _ (read_u8_cons _ _)).
  erewrite pbind_ok by (apply rd_len; symmetry; exact L1). erewrite pbind_ok by apply read_len1_ok.
  erewrite pbind_ok by apply read_u8_cons. erewrite pbind_ok by (apply rd_len; symmetry; exact L2). erewrite pbind_ok by apply read_len1_ok.
  destruct (lenenc_fwd count _ (cols ++ size ++ meta ++ bitmap ++ rest) D1) as (l1 & E1 & U1). erewrite pbind_ok by exact E1. rewrite U1.
  erewrite pbind_ok by reflexivity. erewrite pbind_ok by (apply rd_len; reflexivity).
  destruct (lenenc_fwd size _ (meta ++ bitmap ++ rest) D2) as (l2 & E2 & U2). erewrite pbind_ok by exact E2. rewrite U2.
  erewrite pbind_ok by reflexivity. erewrite pbind_ok by (apply rd_len; reflexivity).
  erewrite pbind_ok.
  2:{ unfold plift, cadd. change (2 ^ 61) with 2305843009213693952 in Lc. change (2 ^ 64) with 18446744073709551616.
      destruct (N.leb_spec 18446744073709551616 (N.of_nat (length cols) + 7)); [lia|]. reflexivity. }
  cbv zeta. erewrite pbind_ok by (apply rd_len; unfold blen; lia). reflexivity.
Qed.
Lemma raw_inv payload raw rest : N.of_nat (length payload) < 2 ^ 61 -> read_raw_table_map payload = (Ok raw, rest) ->
  exists n1 f1 n2 f2 count size,
    payload = n1 :: rtm_schema_name raw ++ f1 :: n2 :: rtm_table_name raw ++ f2 :: count ++ rtm_col_defs raw ++ size ++ rtm_col_meta_defs raw ++ rtm_null_bitmap raw ++ rest /\
    N.of_nat (length (rtm_schema_name raw)) = b2n n1 /\ N.of_nat (length (rtm_table_name raw)) = b2n n2 /\
    dlenenc count = Some (N.of_nat (length (rtm_col_defs raw)), []) /\ dlenenc size = Some (N.of_nat (length (rtm_col_meta_defs raw)), []) /\
    length (rtm_null_bitmap raw) = ((length (rtm_col_defs raw) + 7) / 8)%nat /\ rtm_col_cnt raw = N.of_nat (length (rtm_col_defs raw)).
Proof.
  intros Lp H. unfold read_raw_table_map in H.
  apply pbind_inv in H. destruct H as (x1 & m1 & H1 & H). apply read_u8_inv in H1. destruct H1 as (n1 & -> & ->).
  apply pbind_inv in H. destruct H as (schema & m2 & H1 & H). apply read_len_inv in H1. destruct H1 as [-> L1].
  apply pbind_inv in H. destruct H as (x2 & m3 & H1 & H). apply read_len1 in H1. destruct H1 as (f1 & ->).
  apply pbind_inv in H. destruct H as (x3 & m4 & H1 & H). apply read_u8_inv in H1. destruct H1 as (n2 & -> & ->).
  apply pbind_inv in H. destruct H as (table & m5 & H1 & H). apply read_len_inv in H1. destruct H1 as [-> L2].
  apply pbind_inv in H. destruct H as (x4 & m6 & H1 & H). apply read_len1 in H1. destruct H1 as (f2 & ->).
  apply pbind_inv in H. destruct H as (l1 & m7 & H1 & H). apply pbind_inv in H. destruct H as (cnt & m8 & H2 & H).
  destruct (lei_to_u64 l1) as [c1|] eqn:U1; [|discriminate]. injection H2 as <- <-. destruct (lenenc_inv _ _ _ H1 _ U1) as (count & -> & D1 & _).
  apply pbind_inv in H. destruct H as (cols & m9 & H2 & H). apply read_len_inv in H2. destruct H2 as [-> L3].
  apply pbind_inv in H. destruct H as (l2 & m10 & H2 & H). apply pbind_inv in H. destruct H as (sz & m11 & H3 & H).
  destruct (lei_to_u64 l2) as [c2|] eqn:U2; [|discriminate]. injection H3 as <- <-. destruct (lenenc_inv _ _ _ H2 _ U2) as (size & -> & D2 & _).
  apply pbind_inv in H. destruct H as (meta & m12 & H3 & H). apply read_len_inv in H3. destruct H3 as [-> L4].
  apply pbind_inv in H. destruct H as (sum & m13 & H3 & H). unfold plift, cadd in H3. destruct (2 ^ 64 <=? c1 + 7); [discriminate|]. injection H3 as <- <-.
  cbv zeta in H. apply pbind_inv in H. destruct H as (bm & m14 & H3 & H). apply read_len_inv in H3. destruct H3 as [-> L5]. injection H as <- <-.
  cbn [rtm_schema_name rtm_table_name rtm_col_defs rtm_col_meta_defs rtm_null_bitmap rtm_col_cnt]. unfold blen in *.
  exists n1, f1, n2, f2, count, size. rewrite L3, L4. repeat split; auto. lia.
Qed.
Lemma table_map_exact d : N.of_nat (length (tmd_payload d)) < 2 ^ 61 ->
  panics_exactly (table_map_of d) (fun w => w = PUnimplemented /\ table_map_panics (tmd_payload d)).
Proof.
  intros Lp. unfold table_map_of. destruct (raw_table_map_cases _ Lp) as [(raw & rest & E & _)|[e E]].
  - destruct (raw_inv _ _ _ Lp E) as (n1 & f1 & n2 & f2 & count & size & Ep & L1 & L2 & D1 & D2 & L3 & Ec).
    rewrite E. cbn [fst rbind].
    assert (N.of_nat (length (rtm_col_defs raw)) < 2 ^ 61) as Lc.
    { rewrite Ep in Lp. cbn [length] in Lp. rewrite !app_length in Lp. cbn [length] in Lp. rewrite !app_length in Lp. cbn [length] in Lp. rewrite !app_length in Lp. lia. }
    eapply exactly_iff; [|apply (of_raw_exact raw Ec Lc)]. intros w. split.
    + intros [-> (n1' & schema & f1' & n2' & table & f2' & count' & cols & size' & meta & bitmap & rest' & Ep' & L1' & V1 & L2' & V2 & D1' & D2' & L3' & M)].
      assert (N.of_nat (length cols) < 2 ^ 61) as Lc'.
      { rewrite Ep' in Lp. cbn [length] in Lp. rewrite !app_length in Lp. cbn [length] in Lp. rewrite !app_length in Lp. cbn [length] in Lp. rewrite !app_length in Lp. lia. }
      pose proof (raw_reads n1' schema f1' n2' table f2' count' cols size' meta bitmap rest' L1' L2' D1' D2' L3' Lc') as R.
      rewrite <- Ep', E in R. injection R as -> _. cbn. auto.
    + intros (V1 & V2 & -> & M). split; [reflexivity|].
      exists n1, (rtm_schema_name raw), f1, n2, (rtm_table_name raw), f2, count, (rtm_col_defs raw), size, (rtm_col_meta_defs raw), (rtm_null_bitmap raw), rest.
      repeat (split; [assumption|]). exact M.
  - rewrite E. cbn [rbind]. apply exact_free; [|right; eexists; reflexivity].
    intros w [_ (n1' & schema & f1' & n2' & table & f2' & count' & cols & size' & meta & bitmap & rest' & Ep' & L1' & V1 & L2' & V2 & D1' & D2' & L3' & M)].
    assert (N.of_nat (length cols) < 2 ^ 61) as Lc'.
    { rewrite Ep' in Lp. cbn [length] in Lp. rewrite !app_length in Lp. cbn [length] in Lp. rewrite !app_length in Lp. cbn [length] in Lp. rewrite !app_length in Lp. lia. }
    pose proof (raw_reads n1' schema f1' n2' table f2' count' cols size' meta bitmap rest' L1' L2' D1' D2' L3' Lc') as R.
    rewrite <- Ep' in R. rewrite R in E. discriminate.
Qed.

(** ** GTID sets *)
Definition fatal_entry (bs : bytes) : Prop :=
  exists sid ivs rest, bs = sid ++ ivs ++ rest /\ length sid = 16%nat /\ length ivs = 8%nat /\ 2 ^ 59 <= le_val ivs.
Definition entries_panic (entry : bytes -> Prop) (n : nat) (bs : bytes) : Prop :=
  exists entries tail, bs = concat entries ++ tail /\ Forall entry entries /\ (length entries < n)%nat /\ fatal_entry tail.
Definition entry_reader {A} (entry : bytes -> Prop) (r : parser A) : Prop :=
  pan r (fun bs w => w = PAlloc /\ fatal_entry bs) /\
  (forall e tail, entry e -> fst (r (e ++ tail)) = Panic PAlloc \/ exists x, r (e ++ tail) = (Ok x, tail)) /\
  (forall bs x rest, r bs = (Ok x, rest) -> exists e, entry e /\ bs = e ++ rest).
Lemma pan_entries {A} entry (r : parser A) n : entry_reader entry r ->
  pan (prepeat n r) (fun bs w => w = PAlloc /\ entries_panic entry n bs).
Proof.
  intros (R1 & R2 & R3). induction n as [|n IH]; cbn [prepeat].
  - eapply pan_iff; [|apply pan_free; pt]. intros bs w. split; [|tauto]. intros [_ (es & t & _ & _ & L & _)]. lia.
  - eapply pan_iff; [|apply pan_bind; [exact R1|intros a; apply pan_then; [exact IH|intros; pt]]]. intros bs w. cbv beta. split.
    + intros [-> (es & t & -> & F & L & H)]. destruct es as [|e es]; [left; auto|]. inversion F; subst. cbn [concat]. rewrite <- app_assoc.
      destruct (R2 e (concat es ++ t) H2) as [K|[x K]].
      * left. apply R1 in K. exact K.
      * right. exists x, (concat es ++ t). split; [exact K|]. split; [reflexivity|]. exists es, t. cbn [length] in L. repeat split; auto. lia.
    + intros [[-> H]|(a & rest & K & -> & es & t & -> & F & L & H)]; (split; [reflexivity|]).
      * exists [], bs. repeat split; auto. cbn. lia.
      * destruct (R3 _ _ _ K) as (e & He & ->). exists (e :: es), t. cbn [concat length]. rewrite <- app_assoc. repeat split; auto. lia.
Qed.
Lemma capacity_exact k n : 0 < k -> with_capacity k n = if 2 ^ 63 <=? k * n then Panic PAlloc else Ok tt. Proof. reflexivity. Qed.
Lemma pan_capacity {B} k n (f : parser B) : no_panic f -> pan (plift (with_capacity k n) ;;; f) (fun _ w => w = PAlloc /\ 2 ^ 63 <= k * n).
Proof.
  intros NP bs. unfold pbind, plift, with_capacity. destruct (N.leb_spec (2 ^ 63) (k * n)) as [L|L].
  - split; [|discriminate]. intros w. split; [intros E; injection E as <-; auto|intros [-> _]; reflexivity].
  - apply exact_free; [intros w [_ X]; lia|apply NP].
Qed.
Lemma pan_range {A} (k : N -> N -> parser A) : (forall sid n, no_panic (k sid n)) ->
  pan (sid <- read_le_u128 ;; n <- read_le_u64 ;; plift (with_capacity 16 n) ;;; k sid n) (fun bs w => w = PAlloc /\ fatal_entry bs).
Proof.
  intros NP. eapply pan_iff.
  2:{ apply (pan_le_u128 _ (fun _ bs w => exists a rest, bs = a ++ rest /\ length a = 8%nat /\ w = PAlloc /\ 2 ^ 63 <= 16 * le_val a)). intros sid _.
      apply (pan_le_u64 _ (fun a _ w => w = PAlloc /\ 2 ^ 63 <= 16 * le_val a)). intros a _. apply pan_capacity. apply NP. }
  assert (forall x, 2 ^ 59 <= x <-> 2 ^ 63 <= 16 * x) as Q by (intros x; change (2 ^ 59) with 576460752303423488; change (2 ^ 63) with 9223372036854775808; lia).
  intros bs w. split.
  - intros [-> (sid & ivs & rest & -> & L1 & L2 & H)]. exists sid, (ivs ++ rest). split; [reflexivity|]. split; [exact L1|]. exists ivs, rest. rewrite <- Q. auto.
  - intros (sid & r & -> & L1 & ivs & rest & -> & L2 & -> & H). split; [reflexivity|]. exists sid, ivs, rest. rewrite Q. auto.
Qed.
Lemma le64_val a r : length a = 8%nat -> read_le_u64 (a ++ r) = (Ok (le_val a), r). Proof. intros; apply read_le_u64_spec; assumption. Qed.
Lemma le64_inv bs n r : read_le_u64 bs = (Ok n, r) -> exists a, bs = a ++ r /\ length a = 8%nat /\ n = le_val a.
Proof. apply fixed_inv; [apply le64_val|apply short_reads_all]. Qed.
Lemma le128_inv bs n r : read_le_u128 bs = (Ok n, r) -> exists a, bs = a ++ r /\ length a = 16%nat /\ n = le_val a.
Proof. apply fixed_inv; [intros; apply read_le_u128_spec; assumption|apply short_reads_all]. Qed.
(** the intervals of a GTID set *)
Lemma intervals_read n : forall last ivs rest, length ivs = (16 * n)%nat -> intervals last ivs ->
  exists l, read_gtid_intervals n last (ivs ++ rest) = (Ok l, rest).
Proof.
  induction n as [|n IH]; intros last ivs rest L H.
  - destruct ivs; [|cbn in L; lia]. eexists. reflexivity.
  - inversion H; subst; [cbn in L; lia|]. rewrite !app_length in L. destruct (IH (le_val b) more rest ltac:(lia) H4) as [l E].
    exists ((le_val a, le_val b - 1) :: l). cbn [read_gtid_intervals]. rewrite <- !app_assoc. erewrite pbind_ok by (apply le64_val; assumption).
    erewrite pbind_ok by (apply le64_val; assumption).
    destruct (N.leb_spec (le_val a) last); [lia|]. destruct (N.leb_spec (le_val b) (le_val a)); [lia|]. cbn [orb]. erewrite pbind_ok by exact E. reflexivity.
Qed.
Lemma intervals_inv n : forall last bs l rest, read_gtid_intervals n last bs = (Ok l, rest) ->
  exists ivs, bs = ivs ++ rest /\ length ivs = (16 * n)%nat /\ intervals last ivs.
Proof.
  induction n as [|n IH]; intros last bs l rest H; cbn [read_gtid_intervals] in H.
  - injection H as _ ->. exists []. repeat split. constructor.
  - apply pbind_inv in H. destruct H as (s & m1 & H1 & H). apply le64_inv in H1. destruct H1 as (a & -> & La & ->).
    apply pbind_inv in H. destruct H as (e & m2 & H1 & H). apply le64_inv in H1. destruct H1 as (b & -> & Lb & ->).
    destruct (N.leb_spec (le_val a) last) as [X|X]; [discriminate|]. destruct (N.leb_spec (le_val b) (le_val a)) as [Y|Y]; [discriminate|]. cbn [orb] in H.
    apply pbind_inv in H. destruct H as (l' & m3 & H1 & H). injection H as _ <-. destruct (IH _ _ _ _ H1) as (ivs & -> & L & I).
    exists (a ++ b ++ ivs). rewrite <- !app_assoc. split; [reflexivity|]. split; [rewrite !app_length; lia|]. constructor; assumption.
Qed.
Lemma gtid_reader : entry_reader gtid_entry read_gtid_range.
Proof.
  split; [|split].
  - apply (pan_range (fun sid n => intervals <- read_gtid_intervals (N.to_nat n) 0 ;; pret (mk_gtid_range sid intervals))).
    intros sid n. apply no_panic_bind; [apply np_gtid_intervals|intros; pt].
  - intros e tail (sid & count & ivs & -> & L1 & L2 & L3 & I). rewrite <- !app_assoc. unfold read_gtid_range.
    erewrite pbind_ok by (apply read_le_u128_spec; exact L1). erewrite pbind_ok by (apply le64_val; exact L2).
    destruct (intervals_read (N.to_nat (le_val count)) 0 ivs tail ltac:(lia) I) as [l E]. unfold plift, with_capacity.
    destruct (2 ^ 63 <=? 16 * le_val count); [left; reflexivity|right]. eexists. erewrite pbind_ok by reflexivity. erewrite pbind_ok by exact E. reflexivity.
  - intros bs x rest H. unfold read_gtid_range in H. apply pbind_inv in H. destruct H as (s & m1 & H1 & H). apply le128_inv in H1. destruct H1 as (sid & -> & L1 & ->).
    apply pbind_inv in H. destruct H as (n & m2 & H1 & H). apply le64_inv in H1. destruct H1 as (count & -> & L2 & ->).
    apply pbind_inv in H. destruct H as (u & m3 & H1 & H). unfold plift, with_capacity in H1. destruct (2 ^ 63 <=? 16 * le_val count); [discriminate|]. injection H1 as <- <-.
    apply pbind_inv in H. destruct H as (l & m4 & H1 & H). injection H as _ <-. apply intervals_inv in H1. destruct H1 as (ivs & -> & L3 & I).
    exists (sid ++ count ++ ivs). rewrite <- !app_assoc. split; [|reflexivity]. exists sid, count, ivs. repeat split; auto. lia.
Qed.
Lemma map_capacity_exact n : map_with_capacity n = if 7 * 2 ^ 55 + 1 <=? n then Panic PAlloc else Ok tt.
Proof.
  unfold map_with_capacity. change (7 * 2 ^ 55 + 1) with 252201579132747777. change (2 ^ 61) with 2305843009213693952. change (2 ^ 63) with 9223372036854775808.
  destruct (N.leb_spec 2305843009213693952 n) as [L|L].
  { destruct (N.leb_spec 252201579132747777 n); [reflexivity|lia]. }
  destruct (N.leb_spec 252201579132747777 n) as [X|X].
  - assert (59 <= N.log2_up (n * 8 / 7)) as Q.
    { assert (2 ^ 58 < n * 8 / 7) as K. { change (2 ^ 58) with 288230376151711744. apply N.lt_le_trans with 288230376151711745; [lia|]. apply N.div_le_lower_bound; lia. }
      apply N.log2_up_lt_pow2 in K; [|lia]. lia. }
    apply (N.pow_le_mono_r 2) in Q; [|lia]. change (2 ^ 59) with 576460752303423488 in Q.
    destruct (N.leb_spec 9223372036854775808 (17 * 2 ^ N.log2_up (n * 8 / 7) + 16)); [reflexivity|lia].
  - assert (n * 8 / 7 <= 2 ^ 58) as Q. { change (2 ^ 58) with 288230376151711744. apply N.lt_succ_r. apply N.div_lt_upper_bound; lia. }
    apply N.log2_up_le_mono in Q. rewrite N.log2_up_pow2 in Q by lia. apply (N.pow_le_mono_r 2) in Q; [|lia]. change (2 ^ 58) with 288230376151711744 in Q.
    destruct (N.leb_spec 9223372036854775808 (17 * 2 ^ N.log2_up (n * 8 / 7) + 16)); [lia|reflexivity].
Qed.
Lemma pan_set {A B} entry limit (cap : N -> res unit) (r : parser A) (f : list A -> parser B) :
  (forall n, cap n = if limit <=? n then Panic PAlloc else Ok tt) -> entry_reader entry r -> (forall l, no_panic (f l)) ->
  pan (n <- read_le_u64 ;; plift (cap n) ;;; l <- prepeat (N.to_nat n) r ;; f l) (fun bs w => w = PAlloc /\ set_panics entry limit bs).
Proof.
  intros Hc Hr Hf. eapply pan_iff.
  2:{ apply (pan_le_u64 _ (fun a bs w => w = PAlloc /\ (limit <= le_val a \/ entries_panic entry (N.to_nat (le_val a)) bs))). intros a _ bs.
      unfold pbind at 1. unfold plift. rewrite Hc. destruct (N.leb_spec limit (le_val a)) as [L|L].
      - split; [|discriminate]. intros w. split; [intros E; injection E as <-; auto|intros [-> _]; reflexivity].
      - eapply exactly_iff; [|apply (pan_then _ _ _ (pan_entries entry r _ Hr) Hf)]. intros w. split; [intros [-> [X|X]]; [lia|auto]|intros [-> X]; auto]. }
  intros bs w. split.
  - intros [-> (count & body & -> & L & H)]. exists count, body. split; [reflexivity|]. split; [exact L|]. split; [reflexivity|].
    destruct H as [H|(es & sid & ivs & rest & -> & F & Le & L1 & L2 & H)]; [left; exact H|right]. exists es, (sid ++ ivs ++ rest).
    split; [reflexivity|]. split; [exact F|]. split; [lia|]. exists sid, ivs, rest. auto.
  - intros (count & body & -> & L & -> & H). split; [reflexivity|]. exists count, body. split; [reflexivity|]. split; [exact L|].
    destruct H as [H|(es & t & -> & F & Le & sid & ivs & rest & -> & L1 & L2 & H)]; [left; exact H|right]. exists es, sid, ivs, rest. repeat split; auto. lia.
Qed.
Lemma gtid_set_exact bs : panics_exactly (fst (read_gtid_set bs)) (fun w => w = PAlloc /\ gtid_set_panics bs).
Proof.
  revert bs. apply (pan_set gtid_entry _ map_with_capacity read_gtid_range (fun l => pret (fold_left (fun m r => map_insert m (gr_sid r) r) l []))); [apply map_capacity_exact|apply gtid_reader|intros; pt].
Qed.
(** the entries of a dump request *)
Definition read_pair : parser (Z * Z) := start <- read_le_i64 ;; end_ <- read_le_i64 ;; pret (start, end_).
Lemma fixed_i64 : fixed 8 read_le_i64.
Proof.
  split.
  - intros a r L. unfold read_le_i64, pmap, pbind. rewrite read_le_u64_spec by exact L. eexists. reflexivity.
  - intros bs L. unfold read_le_i64, pmap, pbind. assert (S : short_reads 8 read_le_u64) by apply short_reads_all. rewrite (S _ L). eexists _, _. reflexivity.
Qed.
Lemma fixed_pair : fixed 16 read_pair.
Proof. unfold read_pair. apply (fixed_bind 8 8); [apply fixed_i64|intros a]. apply (fixed_bind 8 0); [apply fixed_i64|intros b]. split; [intros [|] rest L; [eexists; reflexivity|discriminate]|intros bs L; lia]. Qed.
Lemma fixed_read {A} k (p : parser A) : fixed k p -> forall bs x r, p bs = (Ok x, r) -> exists a, bs = a ++ r /\ length a = k.
Proof.
  intros [P1 P2] bs x r E. destruct (cut k bs) as [C|(a & r' & -> & C)]; [destruct (P2 _ C) as (e & r' & E2); rewrite E2 in E; discriminate|].
  destruct (P1 a r' C) as [v E2]. rewrite E2 in E. injection E as _ <-. exists a. auto.
Qed.
Lemma fixed_repeat {A} k (p : parser A) n : fixed k p -> fixed (k * n) (prepeat n p).
Proof.
  intros F. induction n as [|n IH].
  - rewrite Nat.mul_0_r. split; [intros [|] rest L; [eexists; reflexivity|discriminate]|intros bs L; lia].
  - cbn [prepeat]. replace (k * S n)%nat with (k + (k * n + 0))%nat by lia. apply fixed_bind; [exact F|intros a]. apply fixed_bind; [exact IH|intros l].
    split; [intros [|] rest L; [eexists; reflexivity|discriminate]|intros bs L; lia].
Qed.
Lemma sid_reader : entry_reader sid_entry read_sid_range.
Proof.
  split; [|split].
  - apply (pan_range (fun sid n => intervals <- prepeat (N.to_nat n) read_pair ;; pret (mk_sid sid intervals))).
    intros sid n. unfold read_pair. pt.
  - intros e tail (sid & count & ivs & -> & L1 & L2 & L3). rewrite <- !app_assoc. unfold read_sid_range.
    erewrite pbind_ok by (apply read_le_u128_spec; exact L1). erewrite pbind_ok by (apply le64_val; exact L2).
    destruct (proj1 (fixed_repeat 16 read_pair (N.to_nat (le_val count)) fixed_pair) ivs tail ltac:(lia)) as [l E]. unfold plift, with_capacity.
    destruct (2 ^ 63 <=? 16 * le_val count); [left; reflexivity|right]. eexists. erewrite pbind_ok by reflexivity. erewrite pbind_ok by exact E. reflexivity.
  - intros bs x rest H. unfold read_sid_range in H. apply pbind_inv in H. destruct H as (s & m1 & H1 & H). apply le128_inv in H1. destruct H1 as (sid & -> & L1 & ->).
    apply pbind_inv in H. destruct H as (n & m2 & H1 & H). apply le64_inv in H1. destruct H1 as (count & -> & L2 & ->).
    apply pbind_inv in H. destruct H as (u & m3 & H1 & H). unfold plift, with_capacity in H1. destruct (2 ^ 63 <=? 16 * le_val count); [discriminate|]. injection H1 as <- <-.
    apply pbind_inv in H. destruct H as (l & m4 & H1 & H). injection H as _ <-.
    apply (fixed_read _ _ (fixed_repeat 16 read_pair (N.to_nat (le_val count)) fixed_pair)) in H1. destruct H1 as (ivs & -> & L3).
    exists (sid ++ count ++ ivs). rewrite <- !app_assoc. split; [|reflexivity]. exists sid, count, ivs. repeat split; auto. lia.
Qed.
Lemma capacity_40 n : with_capacity 40 n = if 2 ^ 63 / 40 + 1 <=? n then Panic PAlloc else Ok tt.
Proof.
  unfold with_capacity. change (2 ^ 63 / 40 + 1) with 230584300921369396. change (2 ^ 63) with 9223372036854775808.
  destruct (N.leb_spec 230584300921369396 n), (N.leb_spec 9223372036854775808 (40 * n)); try reflexivity; lia.
Qed.
Lemma pbind_pret {A} (p : parser A) bs : pbind p pret bs = p bs.
Proof. unfold pbind. destruct (p bs) as [[] ?]; reflexivity. Qed.
Lemma pbind_ext {A B} (p : parser A) (f g : A -> parser B) bs : (forall a r, f a r = g a r) -> pbind p f bs = pbind p g bs.
Proof. intros H. unfold pbind. destruct (p bs) as [[] ?]; auto. Qed.
Lemma sid_data_exact bs : panics_exactly (fst (read_sid_data bs)) (fun w => w = PAlloc /\ sid_data_panics bs).
Proof.
  replace (read_sid_data bs) with ((n <- read_le_u64 ;; plift (with_capacity 40 n) ;;; l <- prepeat (N.to_nat n) read_sid_range ;; pret l) bs).
  - revert bs. apply (pan_set sid_entry _ (with_capacity 40) read_sid_range pret); [apply capacity_40|apply sid_reader|intros; pt].
  - unfold read_sid_data. apply pbind_ext. intros n r. apply pbind_ext. intros _ r'. apply pbind_pret.
Qed.
Lemma gtid_flags_iff f : f < 2 ^ 16 -> from_bits all_gtid_flags f = if f <? 8 then Some f else None.
Proof.
  intros L. destruct (N.ltb_spec f 8) as [H|H]; [apply CmdProofs.gtid_flags_ok; exact H|]. unfold from_bits. change all_gtid_flags with (N.ones 3).
  rewrite N.ldiff_ones_r. destruct (N.eqb_spec (N.shiftl (N.shiftr f 3) 3) 0) as [E|E]; [|reflexivity]. exfalso. rewrite N.shiftl_mul_pow2, N.shiftr_div_pow2 in E. change (2 ^ 3) with 8 in E.
  pose proof (N.div_mod f 8 ltac:(lia)). pose proof (N.mod_lt f 8 ltac:(lia)). lia.
Qed.
Lemma pan_command {B} (f : command -> parser B) Q : (forall c, pan (f c) Q) ->
  pan (pbind read_command f) (fun bs w => exists cmd rest, bs = cmd :: rest /\ b2n cmd <= 31 /\ Q rest w).
Proof.
  intros H bs. unfold read_command, pbind, read_byte. destruct bs as [|b bs].
  - apply exact_free; [intros w (c & r & E & _); discriminate|right; eexists; reflexivity].
  - pose proof (CmdProofs.command_of_none b) as K. destruct (command_of b) as [c|].
    + eapply exactly_iff; [|apply H]. intros w. split.
      * intros (cmd & r & E & _ & HQ). injection E as <- <-. exact HQ.
      * intros HQ. exists b, bs. split; [reflexivity|]. split; [|exact HQ]. destruct (N.le_gt_cases 32 (b2n b)) as [X|X]; [apply K in X; discriminate|lia].
    + apply exact_free; [|right; eexists; reflexivity]. intros w (cmd & r & E & L & _). injection E as <- <-. destruct K as [K _]. specialize (K eq_refl). lia.
Qed.
Lemma le16_lt a : length a = 2%nat -> le_val a < 2 ^ 16.
Proof. intros L. exact (le_val_bound_k 2 a L). Qed.
Lemma dump_gtid_exact bs : panics_exactly (fst (read_binlog_dump_gtid bs)) (fun w => w = PAlloc /\ dump_gtid_panics bs).
Proof.
  revert bs. eapply pan_iff.
  2:{ unfold read_binlog_dump_gtid. apply pan_command. intros c.
      apply (pan_le_u16 _ (fun flags bs w => le_val flags < 8 /\ exists server b1, bs = server ++ b1 /\ length server = 4%nat /\
        exists flen b2, b1 = flen ++ b2 /\ length flen = 4%nat /\ exists file b3, b2 = file ++ b3 /\ N.of_nat (length file) = le_val flen /\
        (utf8_valid file = true /\ exists pos b4, b3 = pos ++ b4 /\ length pos = 8%nat /\ exists dlen b5, b4 = dlen ++ b5 /\ length dlen = 4%nat /\
        exists data rest, b5 = data ++ rest /\ N.of_nat (length data) = le_val dlen /\ (w = PAlloc /\ sid_data_panics data)))).
      intros flags Lf. rewrite gtid_flags_iff by (apply le16_lt, Lf). destruct (N.ltb_spec (le_val flags) 8) as [X|X].
      2:{ eapply pan_iff; [|apply pan_free; pt]. intros bs w. split; [intros [Y _]; lia|intros []]. }
      eapply pan_iff.
      2:{ apply (pan_le_u32 _ (fun _ b1 w => exists flen b2, b1 = flen ++ b2 /\ length flen = 4%nat /\ exists file b3, b2 = file ++ b3 /\ N.of_nat (length file) = le_val flen /\
        (utf8_valid file = true /\ exists pos b4, b3 = pos ++ b4 /\ length pos = 8%nat /\ exists dlen b5, b4 = dlen ++ b5 /\ length dlen = 4%nat /\
        exists data rest, b5 = data ++ rest /\ N.of_nat (length data) = le_val dlen /\ (w = PAlloc /\ sid_data_panics data)))).
          intros server _.
          apply (pan_le_u32 _ (fun flen b2 w => exists file b3, b2 = file ++ b3 /\ N.of_nat (length file) = le_val flen /\
        (utf8_valid file = true /\ exists pos b4, b3 = pos ++ b4 /\ length pos = 8%nat /\ exists dlen b5, b4 = dlen ++ b5 /\ length dlen = 4%nat /\
        exists data rest, b5 = data ++ rest /\ N.of_nat (length data) = le_val dlen /\ (w = PAlloc /\ sid_data_panics data)))).
          intros flen _.
          apply (pan_len _ _ (fun file b3 w => utf8_valid file = true /\ exists pos b4, b3 = pos ++ b4 /\ length pos = 8%nat /\ exists dlen b5, b4 = dlen ++ b5 /\ length dlen = 4%nat /\
        exists data rest, b5 = data ++ rest /\ N.of_nat (length data) = le_val dlen /\ (w = PAlloc /\ sid_data_panics data))).
          intros file _. unfold from_utf8. destruct (utf8_valid file).
          2:{ intros bs. apply exact_free; [intros w [Y _]; discriminate|right; eexists; reflexivity]. }
          apply pan_ok. eapply pan_iff.
          2:{ apply (pan_le_u64 _ (fun _ b4 w => exists dlen b5, b4 = dlen ++ b5 /\ length dlen = 4%nat /\
                exists data rest, b5 = data ++ rest /\ N.of_nat (length data) = le_val dlen /\ (w = PAlloc /\ sid_data_panics data))). intros pos _.
              apply (pan_le_u32 _ (fun dlen b5 w => exists data rest, b5 = data ++ rest /\ N.of_nat (length data) = le_val dlen /\ (w = PAlloc /\ sid_data_panics data))). intros dlen _.
              apply (pan_len _ _ (fun data _ w => w = PAlloc /\ sid_data_panics data)). intros data _.
              eapply pan_iff; [|apply pan_lift; [intros; apply pan_free; pt|apply (sid_data_exact data)]]. intros bs w. cbv beta. rewrite (proj1 (sid_data_exact data) w). tauto. }
          intros bs w. tauto. }
      intros bs w. tauto. }
  intros bs w. cbv beta. split.
  - intros [-> (cmd & flags & server & flen & file & pos & dlen & data & rest & -> & L1 & L2 & L3 & L4 & L5 & L6 & L7 & L8 & L9 & L10 & H)].
    exists cmd, (flags ++ server ++ flen ++ file ++ pos ++ dlen ++ data ++ rest). repeat (split; [assumption || reflexivity|]).
    exists flags, (server ++ flen ++ file ++ pos ++ dlen ++ data ++ rest). repeat (split; [assumption || reflexivity|]).
    exists server, (flen ++ file ++ pos ++ dlen ++ data ++ rest). repeat (split; [assumption || reflexivity|]).
    exists flen, (file ++ pos ++ dlen ++ data ++ rest). repeat (split; [assumption || reflexivity|]).
    exists file, (pos ++ dlen ++ data ++ rest). repeat (split; [assumption || reflexivity|]).
    exists pos, (dlen ++ data ++ rest). repeat (split; [assumption || reflexivity|]).
    exists dlen, (data ++ rest). repeat (split; [assumption || reflexivity|]). exists data, rest. auto.
  - intros (cmd & r & -> & L1 & flags & r1 & -> & L2 & L3 & server & r2 & -> & L4 & flen & r3 & -> & L5 & file & r4 & -> & L6 & L7 & pos & r5 & -> & L8 & dlen & r6 & -> & L9 & data & rest & -> & L10 & -> & H).
    split; [reflexivity|]. exists cmd, flags, server, flen, file, pos, dlen, data, rest. repeat split; assumption.
Qed.
(** LOAD events with strings for what separates the fields *)
Lemma pan_string {B} (f : N -> bytes -> parser B) Q : (forall n s, pan (f n s) Q) ->
  pan (n <- read_u8 ;; s <- read_len n ;; f n s) (fun bs w => exists s rest, bs = s ++ rest /\ short_string s /\ Q rest w).
Proof.
  intros H. eapply pan_iff; [|apply (pan_u8 _ (fun b bs w => exists s rest, bs = s ++ rest /\ N.of_nat (length s) = b2n b /\ Q rest w))].
  - intros bs w. split.
    + intros (s & rest & -> & (b & t & -> & L) & HQ). exists b, (t ++ rest). split; [reflexivity|]. exists t, rest. auto.
    + intros (b & r & -> & t & rest & -> & L & HQ). exists (b :: t), rest. split; [reflexivity|]. split; [exists b, t; auto|exact HQ].
  - intros b. apply (pan_len _ _ (fun _ => Q)). intros s _. apply H.
Qed.
Lemma new_load_exact bs : panics_exactly (fst (read_new_load bs)) (fun w => w = PArith /\ new_load_too_long bs).
Proof.
  revert bs. eapply pan_iff.
  2:{ unfold read_new_load. do 3 (eapply pan_le_u32; intros ? ?). do 2 (eapply pan_u8; intros ?). eapply pan_le_u32; intros c ?. do 5 (eapply pan_string; intros ? ?).
      eapply pan_u8; intros ?. eapply pan_then; [|intros [[[[? ?] ?] ?] ?]; pt]. exact (load_names_exact _ _ _). }
  intros bs w. cbv beta. split.
  - intros [-> (a & count & strings & opt & lens & rest & -> & La & Lc & Ls & F & Ll & H)].
    do 14 (destruct a as [|? a]; [discriminate La|]). destruct a; [|discriminate La]. clear La.
    do 5 (destruct strings as [|? strings]; [discriminate Ls|]). destruct strings; [|discriminate Ls]. clear Ls.
    repeat match goal with K : Forall _ (_ :: _) |- _ => inversion K; clear K; subst end. cbn [concat]. rewrite app_nil_r, <- !app_assoc. cbn [app].
    exists [b; b0; b1; b2]. eexists. split; [reflexivity|]. split; [reflexivity|].
    exists [b3; b4; b5; b6]. eexists. split; [reflexivity|]. split; [reflexivity|].
    exists [b7; b8; b9; b10]. eexists. split; [reflexivity|]. split; [reflexivity|].
    exists b11. eexists. split; [reflexivity|]. exists b12. eexists. split; [reflexivity|].
    exists count. eexists. split; [reflexivity|]. split; [exact Lc|].
    do 5 (eexists _, _; split; [reflexivity|]; split; [assumption|]).
    exists opt. eexists. split; [reflexivity|]. split; [reflexivity|]. exists lens, rest. rewrite <- Ll. auto.
  - intros (a1 & r1 & -> & L1 & a2 & r2 & -> & L2 & a3 & r3 & -> & L3 & b1 & r4 & -> & b2 & r5 & -> & c & r6 & -> & Lc & s1 & r7 & -> & S1 & s2 & r8 & -> & S2 &
      s3 & r9 & -> & S3 & s4 & r10 & -> & S4 & s5 & r11 & -> & S5 & opt & r12 & -> & -> & lens & rest & -> & Ll & H).
    split; [reflexivity|]. exists (a1 ++ a2 ++ a3 ++ [b1; b2]), c, [s1; s2; s3; s4; s5], opt, lens, rest. cbn [concat]. rewrite app_nil_r, <- !app_assoc.
    split; [reflexivity|]. split; [rewrite !app_length; cbn [length]; lia|]. split; [exact Lc|]. split; [reflexivity|]. split; [repeat (apply Forall_cons; [assumption|]); apply Forall_nil|]. split; [exact Ll|]. rewrite Ll. exact H.
Qed.

(** ** Row events *)
(** which columns have a value, by the bits of the image *)
Definition count_set (fl : list bool) : nat := length (filter (fun b => b) fl).
Lemma rank_flags bm n : rank bm n = count_set (map (bit bm) (seq 0 n)).
Proof. unfold rank, count_set. generalize (seq 0 n). induction l as [|a l IH]; cbn [filter map length]; [reflexivity|]. destruct (bit bm a); cbn [length]; rewrite IH; reflexivity. Qed.
Lemma cells_val nb : forall fl i k, is_val (nth k (cells_of nb i fl) CAbsent) = nth k fl false && negb (bit nb (i + count_set (firstn k fl))).
Proof.
  induction fl as [|f fl IH]; intros i k; [destruct k; reflexivity|]. destruct k as [|k].
  - cbn [firstn]. unfold count_set. cbn [filter length]. rewrite Nat.add_0_r. destruct f; cbn [cells_of nth]; [|reflexivity]. destruct (bit nb i); reflexivity.
  - cbn [firstn]. destruct f; cbn [cells_of nth]; rewrite IH; unfold count_set; cbn [filter length]; [|reflexivity]. rewrite Nat.add_succ_r. reflexivity.
Qed.
Lemma flags_count n bm : length (filter (fun b => b) (flags_of n bm)) = rank bm (N.to_nat n).
Proof. rewrite rank_flags. reflexivity. Qed.
Lemma mark_values n nb bm : (N.to_nat n <= 8 * length bm)%nat -> (rank bm (N.to_nat n) <= 8 * length nb)%nat ->
  exists cb, mark_nulls (rank bm (N.to_nat n)) 0 0 nb bm = Ok cb /\ length cb = length bm /\
    forall k, (k < N.to_nat n)%nat -> bit cb k = has_value bm nb k.
Proof.
  intros L1 L2. set (fl := flags_of n bm). assert (length fl = N.to_nat n) as Lf by apply flags_length.
  destruct (mark_nulls_spec (cells_of nb 0 fl) 0 0 nb bm) as (cb & E1 & E2 & E3 & _).
  - intros k Hk. rewrite cells_length, Lf in Hk. cbn [Nat.add]. rewrite cells_present. unfold fl. rewrite flags_nth by exact Hk. reflexivity.
  - rewrite cells_length, Lf. exact L1.
  - intros k Hk. apply cells_null. exact Hk.
  - rewrite cells_filter. unfold fl. rewrite flags_count. exact L2.
  - rewrite cells_filter in E1. unfold fl in E1. rewrite flags_count in E1. exists cb. split; [exact E1|]. split; [exact E2|]. intros k Hk.
    specialize (E3 k). rewrite cells_length, Lf in E3. cbn [Nat.add] in E3. rewrite E3 by exact Hk. rewrite cells_val. unfold fl. rewrite flags_nth by exact Hk.
    unfold has_value. rewrite rank_flags. cbn [Nat.add]. do 4 f_equal. unfold flags_of. rewrite firstn_map. f_equal.
    rewrite <- (seq_length k 0) at 1. replace (N.to_nat n) with (k + (N.to_nat n - k))%nat by lia. rewrite seq_app. rewrite firstn_app, seq_length, Nat.sub_diag. cbn [firstn]. rewrite app_nil_r.
    rewrite <- (seq_length k 0) at 1. apply firstn_all.
Qed.
(** a parser that reads exactly the images it should *)
Definition reads {A} (p : parser A) (image : bytes -> bytes -> Prop) : Prop := forall bs rest, (exists v, p bs = (Ok v, rest)) <-> image bs rest.
Lemma columns_le value metas i bs j rest : columns_read value metas i bs j rest -> (i <= j)%nat.
Proof. induction 1; lia. Qed.
Lemma columns_step value metas i bs j rest : (i < j)%nat -> columns_read value metas i bs j rest <->
  if value i then exists m v mid, nth_error metas i = Some m /\ read_binlog_value m bs = (Ok v, mid) /\ columns_read value metas (S i) mid j rest
  else columns_read value metas (S i) bs j rest.
Proof.
  intros L. split.
  - intros H. inversion H; subst; [lia| |]; match goal with E : value i = _ |- _ => rewrite E end; eauto 8.
  - destruct (value i) eqn:E; [intros (m & v & mid & E1 & E2 & H); eapply cr_value; eassumption|intros H; apply cr_left_out; assumption].
Qed.
Lemma columns_none value metas i bs rest : columns_read value metas i bs i rest <-> rest = bs.
Proof.
  split; [|intros ->; constructor]. intros H. inversion H; subst; [reflexivity| |]; match goal with K : columns_read _ _ (S _) _ _ _ |- _ => apply columns_le in K; lia end.
Qed.
Definition column_fatal (metas : list column_meta) (i : nat) (rest : bytes) (w : panic) : Prop :=
  match nth_error metas i with Some m => value_panics m rest w | None => w = PIndex end.
Lemma log_cols_reads value metas cb : forall n i, (i + n <= 8 * length cb)%nat -> (forall k, (i <= k < i + n)%nat -> bit cb k = value k) ->
  reads (read_log_cols n i cb metas) (fun bs rest => columns_read value metas i bs (i + n) rest).
Proof.
  induction n as [|n IH]; intros i L Hv bs rest.
  - rewrite Nat.add_0_r. rewrite columns_none. cbn [read_log_cols]. split; [intros [v E]; injection E as _ <-; reflexivity|intros ->; eexists; reflexivity].
  - rewrite columns_step by lia. cbn [read_log_cols]. rewrite bm_index_spec by lia. rewrite Hv by lia. erewrite pbind_ok by reflexivity.
    assert (forall k, (S i <= k < S i + n)%nat -> bit cb k = value k) as Hv' by (intros k Hk; apply Hv; lia).
    specialize (IH (S i) ltac:(lia) Hv'). replace (i + S n)%nat with (S i + n)%nat by lia. destruct (value i).
    + split.
      * intros [v E]. destruct (nth_error metas i) as [m|] eqn:Em; [|discriminate]. apply pbind_inv in E. destruct E as (x & mid & E1 & E). apply pbind_inv in E. destruct E as (xs & mid2 & E2 & E).
        injection E as _ <-. exists m, x, mid. split; [reflexivity|]. split; [exact E1|]. apply IH. eauto.
      * intros (m & v & mid & -> & E1 & H). apply IH in H. destruct H as [vs E2]. eexists. erewrite pbind_ok by exact E1. erewrite pbind_ok by exact E2. reflexivity.
    + eapply iff_trans; [|exact (IH bs rest)]. split.
      * intros [v E]. apply pbind_inv in E. destruct E as (x & mid & E1 & E). injection E1 as _ <-. apply pbind_inv in E. destruct E as (xs & mid2 & E2 & E). injection E as _ <-. eauto.
      * intros [vs E]. eexists. erewrite pbind_ok by reflexivity. erewrite pbind_ok by exact E. reflexivity.
Qed.
Definition columns_panic (value : nat -> bool) (metas : list column_meta) (i j : nat) (bs : bytes) (w : panic) : Prop :=
  exists k rest, columns_read value metas i bs k rest /\ (k < j)%nat /\ value k = true /\ column_fatal metas k rest w.
Lemma columns_panic_step value metas i j bs w : (i < j)%nat -> columns_panic value metas i j bs w <->
  if value i then column_fatal metas i bs w \/ exists m v mid, nth_error metas i = Some m /\ read_binlog_value m bs = (Ok v, mid) /\ columns_panic value metas (S i) j mid w
  else columns_panic value metas (S i) j bs w.
Proof.
  intros L. split.
  - intros (k & rest & H & Lk & V & F). destruct (Nat.eq_dec k i) as [->|N].
    + apply columns_none in H. subst rest. rewrite V. left. exact F.
    + pose proof (columns_le _ _ _ _ _ _ H) as Lk'. rewrite columns_step in H by lia. destruct (value i).
      * destruct H as (m & v & mid & E1 & E2 & H). right. exists m, v, mid. split; [exact E1|]. split; [exact E2|]. exists k, rest. auto.
      * exists k, rest. auto.
  - destruct (value i) eqn:E.
    + intros [F|(m & v & mid & E1 & E2 & k & rest & H & Lk & V & F)].
      * exists i, bs. split; [constructor|]. auto.
      * exists k, rest. split; [eapply cr_value; eassumption|]. auto.
    + intros (k & rest & H & Lk & V & F). exists k, rest. split; [apply cr_left_out; assumption|]. auto.
Qed.
Lemma log_cols_exact value metas cb : forall n i, (i + n <= 8 * length cb)%nat -> (forall k, (i <= k < i + n)%nat -> bit cb k = value k) ->
  pan (read_log_cols n i cb metas) (columns_panic value metas i (i + n)).
Proof.
  induction n as [|n IH]; intros i L Hv.
  - eapply pan_iff; [|apply pan_free; cbn [read_log_cols]; pt]. intros bs w. split; [|intros []]. intros (k & rest & H & Lk & _). apply columns_le in H. lia.
  - eapply pan_iff; [intros bs w; apply columns_panic_step; lia|]. cbn [read_log_cols]. rewrite bm_index_spec by lia. rewrite Hv by lia. apply pan_ok.
    assert (forall k, (S i <= k < S i + n)%nat -> bit cb k = value k) as Hv' by (intros k Hk; apply Hv; lia).
    specialize (IH (S i) ltac:(lia) Hv'). replace (i + S n)%nat with (S i + n)%nat by lia. destruct (value i).
    + unfold column_fatal. destruct (nth_error metas i) as [m|] eqn:Em.
      * eapply pan_iff; [|apply pan_bind; [exact (value_exact m)|intros v; apply pan_then; [exact IH|intros; pt]]]. intros bs w. cbv beta. split.
        -- intros [H|(m' & v & mid & E & H)]; [left; exact H|]. injection E as <-. right. exists v, mid. exact H.
        -- intros [H|(v & mid & H)]; [left; exact H|right; exists m, v, mid; auto].
      * intros bs. unfold pbind, ppanic. cbn [fst]. split; [|discriminate]. intros w. split; [intros E; injection E as <-; left; reflexivity|intros [->|(m & _ & _ & E & _)]; [reflexivity|discriminate]].
    + exact (pan_then _ (fun vs => pret (LNull :: vs)) _ IH ltac:(intros; pt)).
Qed.
(** an image of a row *)
Lemma row_image_parts n bm metas : n < 2 ^ 32 -> (N.to_nat n <= 8 * length bm)%nat -> forall bs,
  (exists nulls values cb, bs = nulls ++ values /\ length nulls = ((rank bm (N.to_nat n) + 7) / 8)%nat /\
     read_row_image n bm (rank bm (N.to_nat n)) metas bs = read_log_cols (N.to_nat n) 0 cb metas values /\
     (0 + N.to_nat n <= 8 * length cb)%nat /\ forall k, (0 <= k < 0 + N.to_nat n)%nat -> bit cb k = has_value bm nulls k) \/
  ((length bs < (rank bm (N.to_nat n) + 7) / 8)%nat /\ exists e, fst (read_row_image n bm (rank bm (N.to_nat n)) metas bs) = Err e).
Proof.
  intros Hn L bs. set (c := rank bm (N.to_nat n)) in *. assert (N.to_nat (N.shiftr (N.of_nat c + 7) 3) = ((c + 7) / 8)%nat) as Q.
  { rewrite N.shiftr_div_pow2. change (2 ^ 3) with 8. rewrite N2Nat.inj_div, N2Nat.inj_add, Nat2N.id. reflexivity. }
  destruct (cut ((c + 7) / 8) bs) as [S|(nulls & values & -> & Ln)].
  - right. split; [exact S|]. unfold read_row_image, pbind. destruct (read_len_cases (N.shiftr (N.of_nat c + 7) 3) bs) as [(a & r & -> & La & _)|[e E]].
    + exfalso. rewrite app_length in S. unfold blen in La. lia.
    + exists e. destruct (read_len (N.shiftr (N.of_nat c + 7) 3) bs) as [r x]. cbn [fst] in E. subst r. reflexivity.
  - left. destruct (mark_values n nulls bm L) as (cb & E1 & E2 & E3).
    { fold c. pose proof (Nat.div_mod (c + 7) 8 ltac:(lia)). pose proof (Nat.mod_upper_bound (c + 7) 8 ltac:(lia)). lia. }
    exists nulls, values, cb. split; [reflexivity|]. split; [exact Ln|]. split; [|split; [lia|intros k Hk; apply E3; lia]].
    unfold read_row_image. erewrite pbind_ok by (apply rd_len; unfold blen; lia). fold c in E1. rewrite E1. erewrite pbind_ok by reflexivity.
    unfold read_log_row. rewrite capacity_exact by lia. destruct (N.leb_spec (2 ^ 63) (40 * n)) as [X|X]; [exfalso|reflexivity].
    change (2 ^ 32) with 4294967296 in Hn. change (2 ^ 63) with 9223372036854775808 in X. lia.
Qed.
Lemma image_reads n bm metas : n < 2 ^ 32 -> (N.to_nat n <= 8 * length bm)%nat ->
  reads (read_row_image n bm (rank bm (N.to_nat n)) metas) (image_read n bm metas).
Proof.
  intros Hn L bs rest. destruct (row_image_parts n bm metas Hn L bs) as [(nulls & values & cb & -> & Ln & E & Lc & Hv)|[S [e E]]].
  - rewrite E. eapply iff_trans; [exact (log_cols_reads (has_value bm nulls) metas cb (N.to_nat n) 0 Lc Hv values rest)|]. cbn [Nat.add]. split.
    + intros H. exists nulls, values. auto.
    + intros (nulls' & values' & E2 & Ln' & H). apply app_inj_len in E2; [|congruence]. destruct E2 as [<- <-]. exact H.
  - split; [intros [v K]; rewrite K in E; discriminate|]. intros (nulls & values & -> & Ln & _). rewrite app_length in S. lia.
Qed.
Lemma image_exact n bm metas : n < 2 ^ 32 -> (N.to_nat n <= 8 * length bm)%nat ->
  pan (read_row_image n bm (rank bm (N.to_nat n)) metas) (Panics.image_panics n bm metas).
Proof.
  intros Hn L bs. destruct (row_image_parts n bm metas Hn L bs) as [(nulls & values & cb & -> & Ln & E & Lc & Hv)|[S [e E]]].
  - rewrite E. eapply exactly_iff; [|exact (log_cols_exact (has_value bm nulls) metas cb (N.to_nat n) 0 Lc Hv values)]. cbn [Nat.add]. intros w. split.
    + intros (nulls' & values' & i & rest & E2 & Ln' & H). apply app_inj_len in E2; [|congruence]. destruct E2 as [<- <-]. exists i, rest. exact H.
    + intros (i & rest & H). exists nulls, values, i, rest. auto.
  - apply exact_free; [|right; exists e; exact E]. intros w (nulls & values & i & rest & -> & Ln & _). rewrite app_length in S. lia.
Qed.
Lemma rank_none n bm : none_present n bm -> rank bm (N.to_nat n) = 0%nat.
Proof.
  intros [_ H]. rewrite rank_flags. unfold count_set. assert (forall l, (forall i, In i l -> bit bm i = false) -> length (filter (fun b => b) (map (bit bm) l)) = 0%nat) as K.
  { induction l as [|i l IH]; intros Hl; [reflexivity|]. cbn [map filter]. rewrite (Hl i) by (left; reflexivity). apply IH. intros j Hj. apply Hl. right. exact Hj. }
  apply K. intros i Hi. apply in_seq in Hi. apply H. lia.
Qed.
Lemma none_value n bm nulls i : none_present n bm -> (i < N.to_nat n)%nat -> has_value bm nulls i = false.
Proof. intros [_ H] L. unfold has_value. rewrite H by exact L. reflexivity. Qed.
Lemma none_image n bm metas bs : none_present n bm -> image_read n bm metas bs bs.
Proof.
  intros H. exists [], bs. split; [reflexivity|]. rewrite (rank_none _ _ H). split; [reflexivity|].
  assert (forall k i, (i + k = N.to_nat n)%nat -> columns_read (has_value bm []) metas i bs (N.to_nat n) bs) as K.
  { induction k as [|k IH]; intros i E; [rewrite Nat.add_0_r in E; subst i; constructor|]. apply cr_left_out; [apply (none_value n); [exact H|lia]|]. apply IH. lia. }
  apply (K (N.to_nat n)). reflexivity.
Qed.
Lemma none_image_inv n bm metas bs rest : none_present n bm -> image_read n bm metas bs rest -> rest = bs.
Proof.
  intros H (nulls & values & -> & Ln & K). rewrite (rank_none _ _ H) in Ln. destruct nulls; [|discriminate]. cbn [app].
  assert (forall i b j r, columns_read (has_value bm []) metas i b j r -> (j <= N.to_nat n)%nat -> r = b) as Q.
  { induction 1 as [| |i m v b mid j r V E1 E2 H2 IH]; intros Lj; [reflexivity|auto|]. pose proof (columns_le _ _ _ _ _ _ H2). rewrite (none_value n) in V; [discriminate|exact H|lia]. }
  eapply Q; [exact K|lia].
Qed.
Lemma none_quiet n bm metas bs w : none_present n bm -> ~ Panics.image_panics n bm metas bs w.
Proof. intros H (nulls & values & i & rest & _ & _ & _ & L & V & _). rewrite (none_value n) in V; [discriminate|exact H|exact L]. Qed.
Lemma some_or_none n bm : bitmap_of n bm -> none_present n bm \/ (0 < rank bm (N.to_nat n))%nat.
Proof.
  intros L. destruct (rank bm (N.to_nat n)) eqn:E; [left|right; lia]. apply none_of_count; [exact L|]. rewrite flags_count. exact E.
Qed.
Lemma some_not_none n bm : (0 < rank bm (N.to_nat n))%nat -> ~ none_present n bm.
Proof. intros L H. rewrite (rank_none _ _ H) in L. lia. Qed.
(** the loop over the images *)
Lemma while_panic {A} (p : parser A) image fatal : reads p image -> pan p fatal ->
  forall n bs w, fst (pwhile n p bs) = Panic w -> images_panic image fatal bs w.
Proof.
  intros Hr Hf. induction n as [|n IH]; intros [|b bs] w H; try discriminate. cbn [pwhile] in H. unfold pbind in H.
  destruct (Hf (b :: bs)) as [P _]. specialize (Hr (b :: bs)). destruct (p (b :: bs)) as [[a|e|w'|] mid] eqn:E; try discriminate.
  - destruct (pwhile n p mid) as [[l|e|w'|] r] eqn:E2; try discriminate. injection H as ->. destruct (IH mid w) as (rest & I & N & F); [rewrite E2; reflexivity|].
    exists rest. split; [|auto]. eapply im_more; [discriminate| |exact I]. apply Hr. eauto.
  - injection H as ->. exists (b :: bs). split; [constructor|]. split; [discriminate|]. apply P. reflexivity.
Qed.
Lemma while_panics {A} (p : parser A) image fatal : reads p image -> pan p fatal -> consumes p ->
  forall n bs w, (length bs <= n)%nat -> images_panic image fatal bs w -> fst (pwhile n p bs) = Panic w.
Proof.
  intros Hr Hf Hc. induction n as [|n IH]; intros bs w L (rest & I & N & F).
  - destruct bs; [|cbn in L; lia]. inversion I; subst; congruence.
  - inversion I; subst.
    + destruct rest as [|b bs]; [congruence|]. cbn [pwhile]. unfold pbind. destruct (Hf (b :: bs)) as [P _]. apply P in F. destruct (p (b :: bs)) as [r x]. cbn [fst] in F. subst r. reflexivity.
    + destruct bs as [|b bs]; [congruence|]. cbn [pwhile]. unfold pbind. match goal with K : image _ mid |- _ => apply Hr in K; destruct K as [v E] end. rewrite E.
      pose proof (Hc _ _ _ E) as Lc. cbn [length] in *.
      assert (fst (pwhile n p mid) = Panic w) as E2 by (apply IH; [lia|exists rest; auto]). destruct (pwhile n p mid) as [r x]. cbn [fst] in E2. subst r. reflexivity.
Qed.
Lemma while_ends {A} (p : parser A) fatal : pan p fatal -> consumes p -> forall n bs, (length bs <= n)%nat -> fst (pwhile n p bs) <> Loop.
Proof.
  intros Hf Hc. induction n as [|n IH]; intros [|b bs] L; try discriminate; [cbn in L; lia|]. cbn [pwhile]. unfold pbind. destruct (Hf (b :: bs)) as [_ NL].
  destruct (p (b :: bs)) as [[a|e|w|] mid] eqn:E; try discriminate; [|exfalso; apply NL; reflexivity]. pose proof (Hc _ _ _ E) as Lc. cbn [length] in *. specialize (IH mid ltac:(lia)).
  destruct (pwhile n p mid) as [[l|e|w|] r]; try discriminate. exfalso; apply IH; reflexivity.
Qed.
Lemma while_endless {A} (p : parser A) image : reads p image -> (forall bs, image bs bs) -> forall n b bs, fst (pwhile n p (b :: bs)) = Loop.
Proof.
  intros Hr Hi. induction n as [|n IH]; intros b bs; [reflexivity|]. cbn [pwhile]. unfold pbind. destruct (proj2 (Hr (b :: bs) (b :: bs)) (Hi _)) as [v E]. rewrite E.
  specialize (IH b bs). destruct (pwhile n p (b :: bs)) as [r x]. cbn [fst] in IH. subst r. reflexivity.
Qed.
Lemma while_exact {A} (p : parser A) image fatal (none : Prop) : reads p image -> pan p fatal ->
  (consumes p /\ ~ none) \/ ((forall bs, image bs bs) /\ (forall bs w, ~ fatal bs w) /\ none) ->
  forall bs, (forall w, fst (while_remaining p bs) = Panic w <-> images_panic image fatal bs w) /\ (fst (while_remaining p bs) = Loop <-> none /\ bs <> []).
Proof.
  intros Hr Hf [[Hc N]|(Hi & Hq & N)] bs; unfold while_remaining; split.
  - intros w. split; [apply while_panic; assumption|apply while_panics; auto].
  - split; [|tauto]. intros E. exfalso. apply (while_ends p fatal Hf Hc (length bs) bs); auto.
  - intros w. split; [apply while_panic; assumption|]. intros (rest & _ & _ & F). exfalso. apply (Hq _ _ F).
  - destruct bs as [|b bs]; [split; [discriminate|intros [_ X]; congruence]|]. rewrite (while_endless p image Hr Hi). split; [intros _; split; [exact N|discriminate]|auto].
Qed.
(** the front of a row event *)
Definition row_head {A} (extra_len : N) (k : bytes -> N -> N -> parser A) : parser A :=
  len <- plift (csub extra_len 2) ;; extra <- read_len len ;; ' (n, b) <- read_n_cols ;; k extra n b.
Lemma n_cols_fwd w v rest : dlenenc w = Some (v, []) ->
  read_n_cols (w ++ rest) = if v mod 2 ^ 32 <? 2 ^ 32 - 7 then (Ok (v mod 2 ^ 32, (v mod 2 ^ 32 + 7) / 8), rest) else (Panic PArith, rest).
Proof.
  intros D. destruct (lenenc_fwd w v rest D) as (l & E & E64). unfold read_n_cols. erewrite pbind_ok by exact E.
  assert (exists m, lei_to_u32 l = Some m) as [m E32] by (destruct l; try discriminate; eexists; reflexivity).
  destruct (lenenc_inv _ _ _ E v E64) as (w' & Ew & _ & M). specialize (M m E32). subst m. rewrite E32. unfold pbind, pret, plift, cadd.
  change (2 ^ 32 - 7) with 4294967289. change (2 ^ 32) with 4294967296.
  destruct (N.leb_spec 4294967296 (v mod 4294967296 + 7)), (N.ltb_spec (v mod 4294967296) 4294967289); try lia; [reflexivity|]. rewrite N.shiftr_div_pow2. reflexivity.
Qed.
Lemma head_fwd {A} extra_len (k : bytes -> N -> N -> parser A) payload n rest : announces extra_len payload n rest ->
  exists extra, row_head extra_len k payload = if n <? 2 ^ 32 - 7 then k extra n ((n + 7) / 8) rest else (Panic PArith, rest).
Proof.
  intros (extra & w & v & L & -> & D & ->). exists extra. unfold row_head. destruct (csub_2 extra_len) as [[X _]|[X ->]]; [lia|]. erewrite pbind_ok by reflexivity.
  erewrite pbind_ok by (apply rd_len; unfold blen; lia). unfold pbind. rewrite (n_cols_fwd _ _ _ D). destruct (v mod 2 ^ 32 <? 2 ^ 32 - 7); reflexivity.
Qed.
Lemma head_cases {A} extra_len (k : bytes -> N -> N -> parser A) payload :
  (exists extra n body, row_body extra_len payload n body /\ row_head extra_len k payload = k extra n ((n + 7) / 8) body) \/
  (row_head_panics extra_len payload PArith /\ fst (row_head extra_len k payload) = Panic PArith) \/
  (exists e, fst (row_head extra_len k payload) = Err e).
Proof.
  unfold row_head. unfold pbind at 1 4 7. unfold plift. destruct (csub_2 extra_len) as [[L ->]|[L ->]]; [right; left; split; [split; auto|reflexivity]|].
  unfold pbind at 1 3 5. destruct (read_len_cases (extra_len - 2) payload) as [(extra & r1 & -> & Le & ->)|[e E]].
  2:{ destruct (read_len (extra_len - 2) payload) as [r x]. cbn [fst] in *. subst r. right. right. eexists. reflexivity. }
  unfold blen in Le. unfold pbind. destruct (n_cols_cases r1) as [(w & v & r2 & -> & D & Ln & ->)|[(w & v & r2 & -> & D & Ln & E)|[e E]]].
  - left. exists extra, (v mod 2 ^ 32), r2. split; [|reflexivity]. split; [|exact Ln]. exists extra, w, v. split; [lia|auto].
  - right. left. destruct (read_n_cols (w ++ r2)) as [r x]. cbn [fst] in *. subst r. split; [|reflexivity]. split; [reflexivity|]. right. exists (v mod 2 ^ 32), r2. split; [|exact Ln].
    exists extra, w, v. split; [lia|auto].
  - right. right. destruct (read_n_cols r1) as [r x]. cbn [fst] in *. subst r. eexists. reflexivity.
Qed.
Lemma head_low {A} extra_len (k : bytes -> N -> N -> parser A) payload : extra_len < 2 -> fst (row_head extra_len k payload) = Panic PArith.
Proof. intros L. unfold row_head, pbind, plift. destruct (csub_2 extra_len) as [[_ ->]|[X _]]; [reflexivity|lia]. Qed.
(** the event as a whole: what its front and what its rows do *)
Lemma event_exact {A} extra_len (k : bytes -> N -> N -> parser A) (P : N -> bytes -> panic -> Prop) (E : N -> bytes -> Prop) payload :
  (forall extra n body, n < 2 ^ 32 - 7 -> (forall w, fst (k extra n ((n + 7) / 8) body) = Panic w <-> P n body w) /\ (fst (k extra n ((n + 7) / 8) body) = Loop <-> E n body)) ->
  (forall w, fst (row_head extra_len k payload) = Panic w <-> row_head_panics extra_len payload w \/ exists n body, row_body extra_len payload n body /\ P n body w) /\
  (fst (row_head extra_len k payload) = Loop <-> exists n body, row_body extra_len payload n body /\ E n body).
Proof.
  intros H. split; [intros w|]; split.
  - intros K. destruct (head_cases extra_len k payload) as [(extra & n & body & B & E1)|[[B E1]|[e E1]]]; rewrite E1 in K; [|injection K as <-; left; exact B|discriminate].
    right. exists n, body. split; [exact B|]. apply (H extra n body (proj2 B)). exact K.
  - intros [[-> [L|(n & rest & A1 & L)]]|(n & body & [A1 L] & Hp)].
    + apply head_low, L.
    + destruct (head_fwd extra_len k payload n rest A1) as [extra ->]. destruct (N.ltb_spec n (2 ^ 32 - 7)); [lia|reflexivity].
    + destruct (head_fwd extra_len k payload n body A1) as [extra ->]. destruct (N.ltb_spec n (2 ^ 32 - 7)); [|lia]. apply H; assumption.
  - intros K. destruct (head_cases extra_len k payload) as [(extra & n & body & B & E1)|[[B E1]|[e E1]]]; rewrite E1 in K; try discriminate.
    exists n, body. split; [exact B|]. apply (H extra n body (proj2 B)). exact K.
  - intros (n & body & [A1 L] & He). destruct (head_fwd extra_len k payload n body A1) as [extra ->]. destruct (N.ltb_spec n (2 ^ 32 - 7)); [|lia]. apply (H extra n body L). exact He.
Qed.
Lemma fst_then {A B} (p : parser A) (f : A -> B) bs : (forall w, fst ((l <- p ;; pret (f l)) bs) = Panic w <-> fst (p bs) = Panic w) /\ (fst ((l <- p ;; pret (f l)) bs) = Loop <-> fst (p bs) = Loop).
Proof. unfold pbind. destruct (p bs) as [[a|e|w|] r]; cbn [fst pret]; (split; [intros w'|]; split; intros H; try discriminate H; try reflexivity; injection H as ->; reflexivity). Qed.
Lemma bitmap_covers n bm : bitmap_of n bm -> (N.to_nat n <= 8 * length bm)%nat.
Proof. unfold bitmap_of. intros L. lia. Qed.
Lemma len_tail {A} k (f : bytes -> parser A) (P : bytes -> bytes -> panic -> Prop) (E : bytes -> bytes -> Prop) body :
  (forall a rest, N.of_nat (length a) = k -> (forall w, fst (f a rest) = Panic w <-> P a rest w) /\ (fst (f a rest) = Loop <-> E a rest)) ->
  (forall w, fst (pbind (read_len k) f body) = Panic w <-> exists a rest, body = a ++ rest /\ N.of_nat (length a) = k /\ P a rest w) /\
  (fst (pbind (read_len k) f body) = Loop <-> exists a rest, body = a ++ rest /\ N.of_nat (length a) = k /\ E a rest).
Proof.
  intros H. assert (forall a rest, N.of_nat (length a) = k -> pbind (read_len k) f (a ++ rest) = f a rest) as Q.
  { intros a rest L. apply pbind_ok. apply rd_len. unfold blen. congruence. }
  destruct (read_len_cases k body) as [(a & r & -> & La & _)|[e K]].
  - rewrite Q by exact La. destruct (H a r La) as [H1 H2]. split; [intros w; rewrite H1|rewrite H2]; (split; [intros X; exists a, r; auto|]);
      intros (a' & r' & E1 & La' & X); apply app_inj_len in E1; try (unfold blen in La; lia); destruct E1 as [<- <-]; exact X.
  - assert (forall a rest, body = a ++ rest -> N.of_nat (length a) = k -> False) as No.
    { intros a rest -> L. rewrite rd_len in K by (unfold blen; congruence). discriminate. }
    assert (exists e, fst (pbind (read_len k) f body) = Err e) as [e' Ke]. { unfold pbind. destruct (read_len k body) as [r x]. cbn [fst] in K. subst r. exists e. reflexivity. }
    rewrite Ke. split; [intros w|]; (split; [discriminate|]); intros (a & rest & E1 & L & _); exfalso; eauto.
Qed.
Lemma rows_exact extra_len metas payload :
  (forall w, fst (read_rows_v2 extra_len metas payload) = Panic w <-> rows_panic extra_len metas payload w) /\
  (fst (read_rows_v2 extra_len metas payload) = Loop <-> rows_endless extra_len payload).
Proof.
  pose proof (event_exact extra_len (fun extra n b => present <- read_len b ;; c <- plift (count_present n present) ;;
      rows <- while_remaining (read_row_image n present c metas) ;; pret (mk_rows extra n present rows))
    (fun n body w => exists present rest, body = present ++ rest /\ bitmap_of n present /\ images_panic (image_read n present metas) (Panics.image_panics n present metas) rest w)
    (fun n body => exists present rest, body = present ++ rest /\ bitmap_of n present /\ (none_present n present /\ rest <> [])) payload) as X.
  match type of X with ?h -> _ => assert h as Hh end.
  { intros extra n body Hn. apply len_tail. intros present rest L. pose proof (bitmap_covers n present L) as Lb. rewrite count_present_bits by exact Lb. rewrite flags_count.
    assert (n < 2 ^ 32) as Hn' by (change (2 ^ 32 - 7) with 4294967289 in Hn; change (2 ^ 32) with 4294967296; lia).
    destruct (fst_then (while_remaining (read_row_image n present (rank present (N.to_nat n)) metas)) (mk_rows extra n present) rest) as [F1 F2].
    assert (forall A B (a : A) (f : A -> parser B) b, pbind (plift (Ok a)) f b = f a b) as Pl by reflexivity. rewrite Pl.
    destruct (while_exact _ _ _ (none_present n present) (image_reads n present metas Hn' Lb) (image_exact n present metas Hn' Lb)) with (bs := rest) as [W1 W2].
    { destruct (some_or_none n present L) as [N|S]; [right|left].
      - split; [intros bs; apply none_image, N|]. split; [intros bs w; apply none_quiet, N|exact N].
      - split; [apply row_image_consumes; exact S|apply some_not_none, S]. }
    split; [intros w; rewrite F1; apply W1|rewrite F2; exact W2]. }
  specialize (X Hh). destruct X as [X1 X2]. split.
  - intros w. eapply iff_trans; [exact (X1 w)|]. unfold rows_panic. split; (intros [H|H]; [left; exact H|right]).
    + destruct H as (n & body & B & present & rest & -> & L & I). exists n, present, rest. auto.
    + destruct H as (n & present & rest & B & L & I). exists n, (present ++ rest). split; [exact B|]. exists present, rest. auto.
  - eapply iff_trans; [exact X2|]. unfold rows_endless. split.
    + intros (n & body & B & present & rest & -> & L & N & R). exists n, present, rest. auto.
    + intros (n & present & rest & B & N & R). exists n, (present ++ rest). split; [exact B|]. exists present, rest. split; [reflexivity|]. split; [exact (proj1 N)|auto].
Qed.
(** updated rows: two images at a time *)
Definition read_image_pair (n : N) (bb ab : bytes) (c1 c2 : nat) (metas : list column_meta) : parser (list binlog_value * list binlog_value) :=
  before_row <- read_row_image n bb c1 metas ;; after_row <- read_row_image n ab c2 metas ;; pret (before_row, after_row).
Lemma pair_reads n bb ab metas : n < 2 ^ 32 -> (N.to_nat n <= 8 * length bb)%nat -> (N.to_nat n <= 8 * length ab)%nat ->
  reads (read_image_pair n bb ab (rank bb (N.to_nat n)) (rank ab (N.to_nat n)) metas) (pair_read n bb ab metas).
Proof.
  intros Hn L1 L2 bs rest. unfold read_image_pair, pair_read. split.
  - intros [v E]. apply pbind_inv in E. destruct E as (x & mid & E1 & E). apply pbind_inv in E. destruct E as (y & mid2 & E2 & E). injection E as _ <-.
    exists mid. split; apply image_reads; eauto.
  - intros (mid & H1 & H2). apply image_reads in H1; [|assumption|assumption]. apply image_reads in H2; [|assumption|assumption]. destruct H1 as [x E1], H2 as [y E2].
    eexists. erewrite pbind_ok by exact E1. erewrite pbind_ok by exact E2. reflexivity.
Qed.
Lemma pair_exact n bb ab metas : n < 2 ^ 32 -> (N.to_nat n <= 8 * length bb)%nat -> (N.to_nat n <= 8 * length ab)%nat ->
  pan (read_image_pair n bb ab (rank bb (N.to_nat n)) (rank ab (N.to_nat n)) metas) (pair_panics n bb ab metas).
Proof.
  intros Hn L1 L2. unfold read_image_pair. eapply pan_iff.
  2:{ apply pan_bind; [apply image_exact; assumption|]. intros x. apply pan_then; [apply image_exact; assumption|intros; pt]. }
  intros bs w. unfold pair_panics. split; (intros [H|H]; [left; exact H|right]).
  - destruct H as (mid & H1 & H2). apply image_reads in H1; [|assumption|assumption]. destruct H1 as [x E]. exists x, mid. auto.
  - destruct H as (x & mid & E & H). exists mid. split; [apply image_reads; eauto|exact H].
Qed.
Lemma update_rows_exact extra_len metas payload :
  (forall w, fst (read_update_rows extra_len metas payload) = Panic w <-> update_rows_panic extra_len metas payload w) /\
  (fst (read_update_rows extra_len metas payload) = Loop <-> update_rows_endless extra_len payload).
Proof.
  pose proof (event_exact extra_len (fun extra n b => bb <- read_len b ;; ab <- read_len b ;; c1 <- plift (count_present n bb) ;; c2 <- plift (count_present n ab) ;;
      rows <- while_remaining (read_image_pair n bb ab c1 c2 metas) ;; pret (mk_update_rows extra n bb ab rows))
    (fun n body w => exists bb r, body = bb ++ r /\ bitmap_of n bb /\ exists ab rest, r = ab ++ rest /\ bitmap_of n ab /\
      images_panic (pair_read n bb ab metas) (pair_panics n bb ab metas) rest w)
    (fun n body => exists bb r, body = bb ++ r /\ bitmap_of n bb /\ exists ab rest, r = ab ++ rest /\ bitmap_of n ab /\ ((none_present n bb /\ none_present n ab) /\ rest <> [])) payload) as X.
  match type of X with ?h -> _ => assert h as Hh end.
  { intros extra n body Hn. apply len_tail. intros bb r L1. apply len_tail. intros ab rest L2.
    pose proof (bitmap_covers n bb L1) as Lb. pose proof (bitmap_covers n ab L2) as La. rewrite count_present_bits by exact Lb. rewrite count_present_bits by exact La. rewrite !flags_count.
    assert (n < 2 ^ 32) as Hn' by (change (2 ^ 32 - 7) with 4294967289 in Hn; change (2 ^ 32) with 4294967296; lia).
    destruct (fst_then (while_remaining (read_image_pair n bb ab (rank bb (N.to_nat n)) (rank ab (N.to_nat n)) metas)) (mk_update_rows extra n bb ab) rest) as [F1 F2].
    assert (forall A B (a : A) (f : A -> parser B) b, pbind (plift (Ok a)) f b = f a b) as Pl by reflexivity. rewrite !Pl.
    destruct (while_exact _ _ _ (none_present n bb /\ none_present n ab) (pair_reads n bb ab metas Hn' Lb La) (pair_exact n bb ab metas Hn' Lb La)) with (bs := rest) as [W1 W2].
    { destruct (some_or_none n bb L1) as [N1|S1].
      - destruct (some_or_none n ab L2) as [N2|S2]; [right|left].
        + split; [intros bs; exists bs; split; apply none_image; assumption|]. split; [|auto].
          intros bs w [H|(mid & _ & H)]; revert H; apply none_quiet; assumption.
        + split; [apply pair_consumes; lia|]. intros [_ H]. revert H. apply some_not_none, S2.
      - left. split; [apply pair_consumes; lia|]. intros [H _]. revert H. apply some_not_none, S1. }
    split; [intros w; rewrite F1; apply W1|rewrite F2; exact W2]. }
  specialize (X Hh). destruct X as [X1 X2]. split.
  - intros w. eapply iff_trans; [exact (X1 w)|]. unfold update_rows_panic. split; (intros [H|H]; [left; exact H|right]).
    + destruct H as (n & body & B & bb & r & -> & L1 & ab & rest & -> & L2 & I). exists n, bb, ab, rest. auto.
    + destruct H as (n & bb & ab & rest & B & L1 & L2 & I). exists n, (bb ++ ab ++ rest). split; [exact B|]. exists bb, (ab ++ rest). split; [reflexivity|]. split; [exact L1|]. exists ab, rest. auto.
  - eapply iff_trans; [exact X2|]. unfold update_rows_endless. split.
    + intros (n & body & B & bb & r & -> & L1 & ab & rest & -> & L2 & [N1 N2] & R). exists n, bb, ab, rest. auto.
    + intros (n & bb & ab & rest & B & N1 & N2 & R). exists n, (bb ++ ab ++ rest). split; [exact B|]. exists bb, (ab ++ rest). split; [reflexivity|]. split; [exact (proj1 N1)|].
      exists ab, rest. split; [reflexivity|]. split; [exact (proj1 N2)|auto].
Qed.
