(** * What stops a release build at other events: proofs *)
From Coq Require Import Lia.
From Verif Require Import Model.Base Model.BytesParser Model.LenEnc Model.Utf8 Model.Time Model.Extract Model.Event Model.EventBody Model.Rows Model.Release
  Spec.Nums Spec.Decoders Spec.Catalogue Spec.Panics Spec.ReleaseSpec Spec.ReleaseAccepts Spec.ReleaseEventPanics
  Proofs.BaseLemmas Proofs.BytesParserProofs Proofs.CodecProofs Proofs.LenEncProofs Proofs.WireLemmas Proofs.PacketProofs Proofs.BitmapProofs Proofs.ReleaseProofs Proofs.ReleaseAccepts
  Proofs.LocalProofs Proofs.TotalProofs Proofs.PanicProofs Proofs.EventPanicProofs Proofs.ExactPanicProofs.
Open Scope N_scope.

(** ** Format description events *)
Definition fde_rest_rel (st : start_data) (header_length : N) : parser fde_data :=
  own <- (fun bs => (bget bs 14, bs)) ;;
  let fde_post_header_len := rsub 8 (b2n own) 57 in
  remaining <- premaining ;;
  if remaining =? fde_post_header_len
  then
    post_header_lengths <- read_rest ;;
    pret (mk_fde (st_binlog_version st) (st_server_version st) (st_create_timestamp st) header_length
            post_header_lengths 0)
  else
    post_header_lengths <- split_to fde_post_header_len ;;
    checksum_flag <- read_u8 ;;
    pret (mk_fde (st_binlog_version st) (st_server_version st) (st_create_timestamp st) header_length
            post_header_lengths checksum_flag).
Lemma fde_rel_eq st hl rest bs : read_start_data bs = (Ok st, hl :: rest) -> read_fde_rel bs = fde_rest_rel st (b2n hl) rest.
Proof. intros E. unfold read_fde_rel. unfold pbind at 1. rewrite E. unfold pbind at 1. rewrite read_u8_cons. reflexivity. Qed.
Definition rest_rel_panics (r : bytes) : Prop :=
  (length r < 15)%nat \/ exists k, gives 8 (b2n (nth 14 r x00)) 57 k /\ N.of_nat (length r) < k.
Lemma byte_gives b k : gives 8 (b2n b) 57 k <-> k = rsub 8 (b2n b) 57.
Proof. symmetry. apply gives_rsub; [apply b2n_lt|reflexivity]. Qed.
Lemma fde_rest_rel_exact st hl r : (fst (fde_rest_rel st hl r) = Panic PIndex /\ rest_rel_panics r) \/
  (returns (fst (fde_rest_rel st hl r)) /\ ~ rest_rel_panics r).
Proof.
  unfold fde_rest_rel, pbind, rest_rel_panics. destruct (Nat.ltb_spec (length r) 15) as [L|L].
  { left. rewrite bget_panic by lia. split; [reflexivity|]. left. exact L. }
  rewrite bget_nth by lia. cbv zeta. set (k := rsub 8 (b2n (nth 14 r x00)) 57).
  unfold premaining. destruct (N.eqb_spec (blen r) k) as [E|E].
  { right. split; [left; eexists; reflexivity|]. intros [X|(k' & G & X)]; [lia|]. apply byte_gives in G. fold k in G. unfold blen in E. lia. }
  unfold split_to. destruct (N.ltb_spec (blen r) k) as [B|B].
  { left. split; [reflexivity|]. right. exists k. split; [apply byte_gives; reflexivity|exact B]. }
  right. split.
  - destruct (skipn (N.to_nat k) r) as [|x y]; [right|left]; eexists; reflexivity.
  - intros [X|(k' & G & X)]; [lia|]. apply byte_gives in G. fold k in G. unfold blen in B. lia.
Qed.
Lemma fde_rel_unfold bs : release_fde_panics bs <-> exists a server pad c hl r, bs = a ++ (server ++ x00 :: pad) ++ c ++ hl :: r /\
  length a = 2%nat /\ length (server ++ x00 :: pad) = 50%nat /\ length c = 4%nat /\ ~ In x00 server /\ utf8_valid server = true /\ rest_rel_panics r.
Proof.
  split.
  - intros (a & server & pad & c & r & -> & La & Lf & Lc & Hn & Hu & X). destruct (split_bytes 4 1 c Lc) as (c1 & c2 & -> & L1 & L2). destruct c2 as [|hl [|]]; try discriminate.
    exists a, server, pad, c1, hl, r. split; [rewrite <- (app_assoc c1); reflexivity|]. auto 10.
  - intros (a & server & pad & c & hl & r & -> & La & Lf & Lc & Hn & Hu & X). exists a, server, pad, (c ++ [hl]), r.
    split; [rewrite <- (app_assoc c); reflexivity|]. rewrite (app_length c). cbn [length]. repeat (split; [first [assumption|lia]|]). exact X.
Qed.
Lemma fde_rel_exact bs : panics_exactly (fst (read_fde_rel bs)) (fun w => w = PIndex /\ release_fde_panics bs).
Proof.
  apply exact_of.
  - intros w [-> H]. apply fde_rel_unfold in H. destruct H as (a & server & pad & c & hl & r & -> & La & Lf & Lc & Hn & Hu & P).
    destruct (start_ok a server pad c (hl :: r) La Lf Lc Hn Hu) as [st E]. rewrite (fde_rel_eq _ _ _ _ E).
    destruct (fde_rest_rel_exact st (b2n hl) r) as [[E1 _]|[_ N]]; [exact E1|contradiction].
  - destruct (read_start_data bs) as [r rest] eqn:E. destruct (np_start bs) as [[st Hs]|[e He]].
    2:{ rewrite E in He. cbn [fst] in He. subst r. left. right. exists e. unfold read_fde_rel, pbind. rewrite E. reflexivity. }
    rewrite E in Hs. cbn [fst] in Hs. subst r. destruct rest as [|hl r].
    { left. right. eexists. unfold read_fde_rel, pbind. rewrite E. reflexivity. }
    rewrite (fde_rel_eq _ _ _ _ E). destruct (fde_rest_rel_exact st (b2n hl) r) as [[E1 E2]|[R _]]; [right|left; exact R].
    exists PIndex. split; [reflexivity|]. apply fde_rel_unfold. apply start_inv in E. destruct E as (a & server & pad & c & -> & La & Lf & Lc & Hn & Hu).
    exists a, server, pad, c, hl, r. auto 10.
Qed.
Lemma announced_gives bs k : whole_header bs -> k = rsub 32 (announced_length bs) 19 <-> gives 32 (announced_length bs) 19 k.
Proof.
  intros _. apply gives_rsub; [|reflexivity]. unfold announced_length. pose proof (le_val_bound (firstn 4 (skipn 9 bs))) as L.
  assert (length (firstn 4 (skipn 9 bs)) <= 4)%nat by (rewrite firstn_length; lia).
  eapply N.lt_le_trans; [exact L|]. change (2 ^ 32) with (256 ^ 4). apply N.pow_le_mono_r; lia.
Qed.
Theorem from_fde_rel_exact bs : panics_exactly (fst (from_fde_bytes_rel bs)) (fun w => w = PIndex /\ release_fde_event_panics bs).
Proof.
  unfold release_fde_event_panics, from_fde_bytes_rel. unfold pbind at 1. destruct (header_exact bs) as [(W & h & E & Eh)|(W & e & r & E)]; rewrite E.
  2:{ apply exact_free; [tauto|right; eexists; reflexivity]. }
  unfold data_len_rel. rewrite Eh. unfold pbind at 1. destruct (read_len_cases (rsub 32 (announced_length bs) 19) (skipn 19 bs)) as [(data & r & B & Ld & ->)|[e Ee]].
  - unfold blen in Ld. pose proof (proj1 (announced_gives bs _ W) Ld) as G.
    assert (U : forall d' r', skipn 19 bs = d' ++ r' -> gives 32 (announced_length bs) 19 (N.of_nat (length d')) -> d' = data).
    { intros d' r' B' G'. apply (announced_gives bs _ W) in G'. rewrite B in B'. apply app_inj_len in B'; [destruct B'; congruence|lia]. }
    destruct (fde_rel_exact data) as [P NL]. destruct (read_fde_rel data) as [[d|e|w|] raw] eqn:Ef; cbn [fst] in *; unfold plift, pbind.
    + apply exact_free.
      * intros w (-> & _ & d' & r' & B' & G' & X). rewrite (U d' r' B' G') in X. specialize (P PIndex). destruct P as [_ P]. discriminate (P (conj eq_refl X)).
      * destruct (fde_checksum_flag d =? 1); [|left; eexists; reflexivity]. destruct (blen raw <? 4); [right; eexists; reflexivity|].
        assert (no_panic read_le_u32) as NP by pt. destruct (NP raw) as [[x ->]|[x ->]]; [left|right]; eexists; reflexivity.
    + apply exact_free; [|right; eexists; reflexivity].
      intros w (-> & _ & d' & r' & B' & G' & X). rewrite (U d' r' B' G') in X. specialize (P PIndex). destruct P as [_ P]. discriminate (P (conj eq_refl X)).
    + split; [|discriminate]. intros w'. split.
      * intros X. injection X as <-. destruct (proj1 (P w) eq_refl) as [-> X]. split; [reflexivity|]. split; [exact W|]. exists data, r. auto.
      * intros (-> & _ & d' & r' & B' & G' & X). rewrite (U d' r' B' G') in X. pose proof (proj2 (P PIndex) (conj eq_refl X)) as Y. injection Y as ->. reflexivity.
    + congruence.
  - destruct (read_len (rsub 32 (announced_length bs) 19) (skipn 19 bs)) as [x y] eqn:Ex. cbn [fst] in Ee. subst x.
    apply exact_free; [|right; eexists; reflexivity]. intros w (_ & _ & d' & r' & B' & G' & _). apply (announced_gives bs _ W) in G'.
    rewrite B', rd_len in Ex by (unfold blen; congruence). discriminate.
Qed.

(** ** Checksums *)
Theorem checksum_rel_exact crc self bs : panics_exactly (checksum_event_rel crc self bs)
  (fun w => w = PIndex /\ p_checksum self = true /\ whole_header bs /\ announced_length bs < 4).
Proof.
  unfold checksum_event_rel. destruct (p_checksum self); cbn [negb]; [|apply exact_free; [intros w (_ & X & _); discriminate|right; eexists; reflexivity]].
  destruct (header_exact bs) as [(W & h & E & Eh)|(W & e & r & E)]; rewrite E; cbn [fst rbind]; [|apply exact_free; [intros w (_ & _ & X & _); exact (W X)|right; eexists; reflexivity]].
  rewrite Eh. set (n := announced_length bs) in *. destruct (cut (N.to_nat n) bs) as [C|(raw & r & B & C)].
  - destruct (read_len_cases n bs) as [(d & r & -> & Ld & _)|[e ->]]; [unfold blen in Ld; rewrite app_length in C; lia|].
    apply exact_free; [|right; eexists; reflexivity]. intros w (_ & _ & _ & X). destruct W. lia.
  - rewrite B, rd_len by (unfold blen; lia). cbn [fst rbind]. rewrite <- B. unfold split_last4, rsub, blen. destruct (N.ltb_spec (N.of_nat (length raw)) 4) as [X|X].
    + destruct (N.ltb_spec (N.of_nat (length raw)) (2 ^ 64 + N.of_nat (length raw) - 4)) as [Y|Y]; [|change (2 ^ 64) with 18446744073709551616 in Y; lia].
      cbn [rbind]. split; [|discriminate]. intros w. split; [intros K; injection K as <-; split; [reflexivity|]; split; [reflexivity|]; split; [exact W|lia]|intros [-> _]; reflexivity].
    + destruct (N.ltb_spec (N.of_nat (length raw)) (N.of_nat (length raw) - 4)) as [Y|Y]; [lia|].
      apply exact_free; [intros w (_ & _ & _ & Z); lia|]. cbn [rbind]. unfold split_at.
      assert (no_panic read_le_u32) as NP by pt. destruct (NP (skipn (N.to_nat (N.of_nat (length raw) - 4)) raw)) as [[x ->]|[x ->]]; cbn [rbind]; [|right; eexists; reflexivity].
      destruct (_ =? _); [left|right]; eexists; reflexivity.
Qed.

(** ** Table maps: the same *)
Theorem table_map_rel_same d : N.of_nat (length (tmd_payload d)) < 2 ^ 61 -> table_map_of_rel d = table_map_of d.
Proof.
  intros L. destruct (table_map_exact d L) as [P _]. destruct (table_map_of_rel_ok d) as [S|E]; [|exact E].
  destruct S as [S|S]; apply P in S; destruct S; discriminate.
Qed.

(** ** LOAD events *)
Lemma np_load_names_rel a b c : no_panic (read_load_names_rel a b c).
Proof. unfold read_load_names_rel, until_nul. pt. Qed.
Theorem load_rel_returns : no_panic read_load_rel.
Proof. unfold read_load_rel. pose proof np_load_names_rel. pt. Qed.
Theorem new_load_rel_returns : no_panic read_new_load_rel.
Proof. unfold read_new_load_rel. pose proof np_load_names_rel. pt. Qed.

(** ** The start of a file *)
Lemma header_code bs h rest : read_event_header bs = (Ok h, rest) -> event_type_of (b2n (nth 4 bs x00)) = Ok (h_type h).
Proof.
  intros E. unfold read_event_header in E. apply pbind_inv in E. destruct E as (h1 & mid & E & K).
  unfold read_event_header_v1 in E. apply pbind_inv in E. destruct E as (ts & m1 & E1 & E).
  apply (fixed_inv 4 read_le_u32 le_val) in E1; [|intros; apply read_le_u32_spec; assumption|apply short_reads_all].
  destruct E1 as (a & -> & La & _). apply pbind_inv in E. destruct E as (c & m2 & E1 & E). apply read_u8_inv in E1. destruct E1 as (b & -> & ->).
  apply pbind_inv in E. destruct E as (sid & m3 & _ & E). apply pbind_inv in E. destruct E as (len & m4 & _ & E). apply pbind_inv in E. destruct E as (t & m5 & E & F).
  unfold plift in E. injection E as E _. injection F as <- _. do 4 (destruct a as [|? a]; [discriminate|]). destruct a; [|discriminate]. cbn [app nth]. rewrite E. f_equal.
  apply pbind_inv in K. destruct K as (p & m6 & _ & K). apply pbind_inv in K. destruct K as (f & m7 & _ & K).
  try (apply pbind_inv in K; destruct K as (g & m8 & _ & K)). injection K as <- _. reflexivity.
Qed.
Lemma code_15 b t : event_type_of (b2n b) = Ok t -> t = EtFormatDescription <-> b = x0f.
Proof. destruct b; intros E; vm_compute in E; try discriminate E; injection E as <-; split; intros X; try discriminate X; reflexivity. Qed.
Lemma version_v4 ev h : read_event_header ev = (Ok h, skipn 19 ev) -> nth 4 ev x00 = x0f -> read_binlog_version ([xfe; x62; x69; x6e] ++ ev) = (Ok V4, ev).
Proof.
  intros E C. unfold read_binlog_version. erewrite pbind_ok by (apply rd_len; reflexivity). change (negb (beqb [xfe; x62; x69; x6e] magic)) with false. cbv iota.
  unfold pbind, ppeek. rewrite E. cbn [fst]. rewrite (proj2 (code_15 _ _ (header_code _ _ _ E)) C). reflexivity.
Qed.
Lemma version_v4_inv bs ev : read_binlog_version bs = (Ok V4, ev) -> bs = [xfe; x62; x69; x6e] ++ ev /\ nth 4 ev x00 = x0f.
Proof.
  unfold read_binlog_version. intros H. apply pbind_inv in H as (m & r & Hm & H).
  destruct (read_len_inv _ _ _ _ Hm) as [-> Hl]. destruct (beqb_spec m magic) as [->|]; [|discriminate]. cbn [negb] in H.
  apply pbind_inv in H as (h & r2 & Hh & H). unfold ppeek in Hh. injection Hh as Hh <-. destruct (read_event_header r) as [rh rr] eqn:Er. cbn [fst] in Hh. subst rh.
  destruct (h_type h) eqn:E; try discriminate.
  - destruct (h_event_len h <? 75); discriminate.
  - injection H as <-. split; [reflexivity|]. apply (code_15 _ _ (header_code _ _ _ Er)). exact E.
Qed.
Lemma file_exact (first : parser (parser_v4 * option N)) (fatal : panic -> bytes -> Prop) : pan first (fun bs w => fatal w bs) ->
  (forall w bs, fatal w bs -> whole_header bs) -> forall bs,
  panics_exactly (fst ((v <- read_binlog_version ;; match v with V4 => ' (pv4, _) <- first ;; pret pv4 | _ => pfail EBinlogFormat end) bs))
    (fun w => at_file_start (fatal w) bs).
Proof.
  intros F WH bs. unfold pbind at 1. destruct (np_version bs) as [[v V]|[e V]].
  2:{ destruct (read_binlog_version bs) as [r x] eqn:Er. cbn [fst] in V. subst r. apply exact_free; [|right; eexists; reflexivity].
      intros w (ev & -> & C & X). destruct (header_exact ev) as [(_ & h & E & _)|(N & _)]; [|exact (N (WH _ _ X))]. rewrite (version_v4 ev h E C) in Er. discriminate. }
  destruct (read_binlog_version bs) as [r ev] eqn:Er. cbn [fst] in V. subst r.
  assert (U : v <> V4 -> forall w, ~ at_file_start (fatal w) bs).
  { intros N w (ev' & -> & C & X). destruct (header_exact ev') as [(_ & h & E & _)|(N' & _)]; [|exact (N' (WH _ _ X))]. rewrite (version_v4 ev' h E C) in Er. congruence. }
  destruct v; try (apply exact_free; [apply U; discriminate|right; eexists; reflexivity]).
  apply version_v4_inv in Er. destruct Er as [-> C]. unfold pbind. destruct (F ev) as [P NL].
  assert (Q : forall w, at_file_start (fatal w) ([xfe; x62; x69; x6e] ++ ev) <-> fatal w ev).
  { intros w. split; [intros (ev' & E & _ & X); injection E as <-; exact X|intros X; exists ev; auto]. }
  destruct (first ev) as [[[p o]|e|w|] r]; cbn [fst] in *.
  - apply exact_free; [|left; eexists; reflexivity]. intros w X. apply Q in X. apply P in X. discriminate.
  - apply exact_free; [|right; eexists; reflexivity]. intros w X. apply Q in X. apply P in X. discriminate.
  - split; [|discriminate]. intros w'. rewrite Q, <- P. split; intros X; injection X as ->; reflexivity.
  - congruence.
Qed.
Theorem open_rel_exact bs : panics_exactly (fst (from_binlog_file_rel bs)) (fun w => w = PIndex /\ at_file_start release_fde_event_panics bs).
Proof.
  eapply exactly_iff; [|exact (file_exact from_fde_bytes_rel (fun w bs => w = PIndex /\ release_fde_event_panics bs) from_fde_rel_exact ltac:(intros w b [_ [H _]]; exact H) bs)].
  intros w. split; [intros (-> & ev & E & C & X); exists ev; auto|intros (ev & E & C & -> & X); split; [reflexivity|]; exists ev; auto].
Qed.
Theorem open_exact bs : panics_exactly (fst (from_binlog_file bs)) (fun w => at_file_start (fun ev => fde_event_panics ev w) bs).
Proof. exact (file_exact from_fde_bytes (fun w bs => fde_event_panics bs w) from_fde_exact ltac:(intros w b [H _]; exact H) bs). Qed.
