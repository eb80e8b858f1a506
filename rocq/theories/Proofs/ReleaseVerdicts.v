(** * What a login, a request for a stream and reading events report, in a release build *)
From Coq Require Import Strings.String.
From Coq Require Import List NArith ZArith Lia Arith Bool.
From Verif Require Import Model.Base Model.BytesParser Model.LenEnc Model.Utf8 Model.Conn Model.Flags Model.Packet Model.Auth Model.Cmd Model.Col Model.Row Model.Stmt
  Model.Fmt Model.Extract Model.Session Model.Event Model.EventBody Model.Stream Model.Release Spec.Nums Spec.LenEncSpec Spec.Framing Spec.Programs Spec.Packets Spec.ResultSets Spec.Hostile Spec.HostileExact Spec.Accepts Spec.AcceptsEvents
  Spec.AcceptsFile Spec.Verdicts Spec.VerdictsCalls Spec.ReleaseAccepts
  Proofs.BaseLemmas Proofs.BytesParserProofs Proofs.ConnProofs Proofs.AuthProofs Proofs.CommandProofs Proofs.SessionProofs Proofs.ScheduleProofs Proofs.HostileProofs Proofs.HostileExactProofs
  Proofs.AcceptsProofs Proofs.AcceptsPackets Proofs.AcceptsRows Proofs.AcceptsEvents Proofs.AcceptsBodies Proofs.AcceptsFileProofs Proofs.VerdictsProofs Proofs.VerdictsLogin Proofs.VerdictsCalls Proofs.ReleaseAccepts.
Import ListNotations.
Open Scope N_scope.

(** ** No decoder reports an error of the server *)
Lemma pl_greeting_rel : plain read_initial_handshake_rel.
Proof. pose proof (pl_until x00 false). unfold read_initial_handshake_rel. cbv zeta. pl. Qed.
Lemma pl_fde_rel : plain read_fde_rel.
Proof.
  pose proof pl_csub. unfold read_fde_rel. apply pl_bind.
  { unfold read_start_data. pl. intros bs e. apply (pl_until x00 false). }
  intros st. apply pl_bind; [apply pl_u8|]. intros hl. apply pl_bind.
  { intros bs e. cbn [fst]. unfold bget. destruct (nth_error bs _); discriminate. }
  intros own. cbv zeta. apply pl_bind; [intros bs e [=]|]. intros rem. destruct (_ =? _); [pl|].
  apply pl_bind; [|intros; pl]. intros bs e. unfold split_to. destruct (_ <? _); discriminate.
Qed.
Lemma pl_fde_bytes_rel : plain from_fde_bytes_rel.
Proof.
  pose proof pl_event_header. unfold from_fde_bytes_rel. apply pl_bind; [assumption|]. intros h. apply pl_bind; [apply pl_len|]. intros raw.
  pose proof (pl_fde_rel raw) as P. destruct (read_fde_rel raw) as [r more]. cbn [fst] in P. apply pl_bind; [apply pl_lift; exact P|]. intros data. apply pl_bind; [|intros; apply pl_ret].
  destruct (_ =? 1); [|apply pl_ret]. destruct (_ <? 4); [apply pl_fail; exact I|]. apply pl_bind; [|intros; apply pl_ret]. apply pl_lift. intros e.
  apply (pl_map le_val (take 4)); apply pl_take.
Qed.
Lemma split_last4_own s e : split_last4 s = Err e -> own e.
Proof. destruct (split_last4_checked s) as [(a & b & ->)|[-> _]]; discriminate. Qed.

(** ** Login *)
Section Login.
  Variables sha1 sha256 : bytes -> bytes.
  Lemma login_reports_rel opts c : accepting (c_ws c) -> reports (handshake_rel sha1 sha256 opts) c (release_login_reply (c_cap c) (o_password opts)).
  Proof.
    intros Ac. unfold handshake_rel. apply rp_recv; [intros v (_ & g & hs & more & m & E & _); discriminate E|].
    intros m d E Cd Sh. pose proof (recv_next _ _ _ E) as (Ad & Nd & _ & _). specialize (Ad Ac).
    pose proof (tm_of _ _ accepts_greeting_rel) as Tg.
    apply (rp_parse read_initial_handshake_rel _ m _ d _ Tg pl_greeting_rel).
    2:{ intros v ms (_ & g & hs & more & m' & X & F & _). injection X as <- _. exists hs. exact F. }
    intros hs Lh.
    assert (One : forall v ms, release_login_reply (c_cap c) (o_password opts) v (m :: ms) <-> v = Done tt /\ exists more m', ms = more ++ [m'] /\
      lets_pass (hs_plugin hs) (o_password opts) more /\ login_completion (cap_session_track (c_cap c)) m').
    { intros v ms. split.
      - intros (-> & g & hs' & more & m' & X & F & H). injection X as <- ->. apply Tg in F, Lh. assert (hs' = hs) as -> by congruence. split; [reflexivity|]. exists more, m'. tauto.
      - intros (-> & more & m' & -> & H). split; [reflexivity|]. exists m, hs, more, m'. tauto. }
    eapply rp_iff; [intros v ms; symmetry; apply One|]. clear One. cbv zeta.
    destruct (starts_method sha1 sha256 (hs_plugin hs) (o_password opts) (hs_auth_data_1 hs ++ hs_auth_data_2 hs)) as [(p0 & resp & p & En & Eg & Q & Tk)|[En No]].
    2:{ apply rp_none; [intros [v|a b s t]; unfold ibind, ilift; rewrite En; discriminate|]. intros v ms (_ & more & m' & _ & Z & _). exact (No _ Z). }
    set (d1 := match o_database opts with [] => set_cap d (login_caps (c_cap d)) | _ => set_cap (set_cap d (login_caps (c_cap d))) (insert (login_caps (c_cap d)) CONNECT_WITH_DB) end).
    set (k := fun c => let cap := c_cap c in let r := mk_hr cap 0xffffff 33 (o_username opts) resp (o_database opts) (hs_plugin hs) [] in
      (_ <~ send_msg false (write_handshake_response r) false ;; fun c => handshake_loop sha1 sha256 false cap (S (sched_len (c_rd c))) p c) c).
    apply (rp_at _ k d d1).
    { unfold ibind at 1. cbn [fst snd]. unfold ibind at 1, ilift. rewrite En. rewrite Eg. unfold d1, k. destruct (o_database opts); reflexivity. }
    { unfold d1. destruct (o_database opts); reflexivity. }
    assert (B : cap_protocol_41 (c_cap d1) = true /\ cap_session_track (c_cap d1) = cap_session_track (c_cap c) /\ accepting (c_ws d1) /\ c_pkt_nr d1 < 256).
    { pose proof (login_caps_bits (c_cap d)) as [B1 B2]. pose proof (with_db_bits (login_caps (c_cap d))) as [B3 B4]. unfold d1. destruct (o_database opts); cbn [c_cap set_cap c_ws c_pkt_nr]; rewrite ?B3, ?B4, B1, B2, Cd; auto. }
    destruct B as (B1 & B2 & Ad1 & Nd1). unfold k. cbv zeta.
    apply (rp_reply (write_handshake_response (mk_hr (c_cap d1) 0xffffff 33 (o_username opts) resp (o_database opts) (hs_plugin hs) [])) (fun _ c => handshake_loop sha1 sha256 false (c_cap d1) (S (sched_len (c_rd c))) p c)); [exact Ad1|exact Nd1|].
    intros d2 _ A2 Ad2. apply (rp_rounds (fun f => handshake_loop sha1 sha256 false (c_cap d1) f p)). intros f Lf.
    eapply rp_iff; [|apply login_loop_reports; [exact Q|exact Ad2|exact Lf]]. intros v ms. unfold login_after.
    split; intros (-> & more & m' & -> & T & C); (split; [reflexivity|]); exists more, m'; (split; [reflexivity|]); (split; [apply Tk; exact T|]); apply (login_completes (c_cap d1) _ _ B1 B2); exact C.
  Qed.

End Login.

(** ** The start of a stream *)
Lemma rotate_same checksum r : (forall e, check_rotate_rel checksum r = Err e -> own e) /\ (check_rotate_rel checksum r = Ok tt <-> check_rotate checksum r = Ok tt).
Proof.
  unfold check_rotate_rel, check_rotate. pose proof (pl_event_header r) as P. destruct (read_event_header r) as [x body]. cbn [fst] in P.
  destruct x as [h|e0| |]; cbn [rbind]; [|split; [intros e [= <-]; apply P; reflexivity|split; discriminate]|split; [intros; discriminate|split; discriminate]..].
  assert (R : forall b e, rmap (fun _ => tt) (fst (read_rotate b)) = Err e -> own e).
  { intros b e1. assert (Pr : plain read_rotate) by (unfold read_rotate; pl). specialize (Pr b). destruct (fst (read_rotate b)); cbn [rmap rbind]; try discriminate. intros [= <-]. apply Pr. reflexivity. }
  destruct (h_type h); try (split; [intros e [= <-]; exact I|reflexivity]). destruct checksum; [|split; [apply R|reflexivity]].
  destruct (split_last4_checked body) as [(a & b & E)|[E L]]; rewrite E; cbn [rmap rbind fst].
  - apply split_last4_ok in E. destruct E as [-> T]. split; [apply R|]. unfold csub, blen. rewrite app_length, T.
    destruct (N.ltb_spec (N.of_nat (length a + 4)) 4); [lia|]. cbn [rmap rbind]. unfold split_at. cbn [fst].
    replace (N.to_nat (N.of_nat (length a + 4) - 4)) with (length a) by lia. rewrite firstn_app, Nat.sub_diag, firstn_all, firstn_O, app_nil_r. reflexivity.
  - split; [intros; discriminate|]. unfold csub, blen. destruct (N.ltb_spec (N.of_nat (length body)) 4); [|lia]. cbn [rmap rbind]. split; discriminate.
Qed.
Lemma rotate_told_rel checksum r : check_rotate_rel checksum r = Ok tt <-> rotate_event checksum r.
Proof. rewrite (proj2 (rotate_same checksum r)). apply rotate_told. Qed.
Lemma rotate_own_rel checksum r e : check_rotate_rel checksum r = Err e -> own e.
Proof. apply rotate_same. Qed.
Lemma accepts_first_message_rel : takes_message from_fde_bytes_rel (fun o w => fields [fun w => exists h, release_first_event_layout h o w; leftover] w).
Proof. apply tm_of, accepts_first_rel. Qed.
Lemma fde_reports_rel o c : reports (recv_fde_rel o) c (fun v ms => exists b d first, ms = [b :: d] /\ fields [fun w => exists h, release_first_event_layout h first w; leftover] d /\
  v = Done (mk_stream (fst first) (bo_validate o) false (bo_non_block o))).
Proof.
  unfold recv_fde_rel. apply rp_recv; [intros v (b & d & first & X & _); discriminate X|]. intros [|b m] d E Cd _; cbn [read_u8].
  { apply rp_none; [intros v; destruct v; discriminate|]. intros v ms (b & d' & first & X & _). discriminate X. }
  apply (rp_parse _ _ _ _ _ _ accepts_first_message_rel pl_fde_bytes_rel).
  - intros [pv4 sum] L. eapply rp_iff; [|apply rp_ret]. intros v ms. cbv beta. split.
    + intros [-> ->]. exists b, m, (pv4, sum). auto.
    + intros (b' & d' & first & X & L' & ->). injection X as <- <- ->. split; [|reflexivity]. apply accepts_first_message_rel in L, L'. rewrite L in L'. injection L' as <-. reflexivity.
  - intros v ms (b' & d' & first & X & L & _). injection X as <- <- _. exists first. exact L.
Qed.
Lemma start_reports_rel checksum o c : reports (recv_stream_start_rel checksum o) c (release_start_reply (c_cap c) checksum o).
Proof.
  unfold recv_stream_start_rel. apply rp_recv.
  { intros v [(m & X & _)|[(r & b & d & first & X & _)|H]]; [discriminate X|discriminate X|exact (no_refusal _ _ H)]. }
  intros m d E Cd _. rewrite <- Cd. destruct m as [|b m].
  { apply rp_none; [intros v; destruct v; discriminate|]. intros v ms [(m & X & (w & S) & _)|[(r & b & d' & first & X & _)|H]].
    - injection X as <- _. discriminate S.
    - discriminate X.
    - apply refusal_start in H. destruct H as [(w & S) _]. discriminate S. }
  destruct (starts_dec xff b m) as [F1 F2]. change (b2n xff) with 255 in *. destruct (b2n b =? 255).
  { specialize (F1 eq_refl). eapply rp_iff; [|apply rp_server, F1]. intros v ms. cbv beta. split; [intros H; right; right; exact H|].
    intros [(m' & X & S & _)|[(r & b' & d' & first & X & _)|H]]; [|destruct F1 as (w & F1); congruence|exact H]. injection X as <- _. pose proof (starts_same _ _ _ F1 S). discriminate. }
  specialize (F2 eq_refl). destruct (starts_dec xfe b m) as [G1 G2]. change (b2n xfe) with 254 in *. destruct (b2n b =? 254).
  { specialize (G1 eq_refl). apply (rp_now (fun c => _ <~ parse (read_eof_packet (c_cap c)) (b :: m) ;; iret (mk_stream (mk_parser [] false) (bo_validate o) true (bo_non_block o)))).
    apply (rp_parse _ _ _ _ _ _ (accepts_eof_message (c_cap d)) (pl_eof _)).
    - intros p Lp. eapply rp_iff; [|apply rp_ret]. intros v ms. cbv beta. split.
      + intros [-> ->]. left. exists (b :: m). split; [reflexivity|]. split; [exact G1|]. split; [exists p; exact Lp|reflexivity].
      + intros [(m' & X & S & L & ->)|[(r & b' & d' & first & X & _)|H]].
        * injection X as _ ->. auto.
        * destruct G1 as (w & G1). congruence.
        * apply refusal_start in H. tauto.
    - intros v ms [(m' & X & S & (p & L) & _)|[(r & b' & d' & first & X & _)|H]].
      + injection X as <- _. exists p. exact L.
      + destruct G1 as (w & G1). congruence.
      + apply refusal_start in H. tauto. }
  specialize (G2 eq_refl). clear F1 G1.
  destruct (N.eqb_spec (b2n b) 0) as [Z|Z].
  - assert (b = x00) by (apply b2n_inj; exact Z). subst b. clear Z.
    assert (R : forall v ms, release_start_reply (c_cap d) checksum o v ((x00 :: m) :: ms) <-> rotate_event checksum m /\ exists b' d' first, ms = [b' :: d'] /\
      fields [fun w => exists h, release_first_event_layout h first w; leftover] d' /\ v = Done (mk_stream (fst first) (bo_validate o) false (bo_non_block o))).
    { intros v ms. split.
      - intros [(m' & X & S & _)|[(r & b' & d' & first & X & Ro & L & ->)|H]].
        + injection X as <- _. contradiction.
        + injection X as <- ->. eauto 10.
        + apply refusal_start in H. tauto.
      - intros (Ro & b' & d' & first & -> & L & ->). right. left. exists m, b', d', first. auto. }
    destruct (check_rotate_rel checksum m) as [[]|e| |] eqn:C.
    + eapply (rp_at _ (recv_fde_rel o) d d); [reflexivity|reflexivity|]. eapply rp_iff; [|apply fde_reports_rel]. intros v ms. cbv beta. rewrite R. apply rotate_told_rel in C. tauto.
    + apply rp_none; [intros [v|a b' s t] T; cbn in T; [discriminate T|]; injection T as ->; exact (rotate_own_rel _ _ _ C)|]. intros v ms H. apply R in H. destruct H as [H _]. apply rotate_told_rel in H. congruence.
    + apply rp_none; [intros [v|a b' s t] T; discriminate T|]. intros v ms H. apply R in H. destruct H as [H _]. apply rotate_told_rel in H. congruence.
    + apply rp_none; [intros [v|a b' s t] T; discriminate T|]. intros v ms H. apply R in H. destruct H as [H _]. apply rotate_told_rel in H. congruence.
  - apply rp_none; [intros [v|a b' s t] T; discriminate T|]. intros v ms [(m' & X & S & _)|[(r & b' & d' & first & X & _)|H]].
    + injection X as <- _. contradiction.
    + injection X as -> _ _. apply Z. reflexivity.
    + apply refusal_start in H. tauto.
Qed.
Lemma stream_reports_rel uuid random_id o c : accepting (c_ws c) -> reports (request_stream_rel uuid random_id o) c (release_stream_reply (c_cap c) o).
Proof.
  intros Ac. unfold request_stream_rel, release_stream_reply. cbv zeta.
  apply rp_then; [apply kc_required|exact Ac|apply required_reports; [apply num_own|exact I|exact Ac]|]. intros id c1 A1 E1. rewrite <- E1. clear E1.
  apply rp_then; [apply kc_set; auto|exact A1|apply set_reports; auto|]. intros u2 c2 A2 E2. rewrite <- E2. clear E2.
  apply rp_then; [apply kc_required|exact A2|apply required_reports; [apply string_own|exact I|exact A2]|]. intros alg c3 A3 E3. rewrite <- E3. clear E3.
  apply rp_then; [apply kc_set; auto|exact A3|apply set_reports; auto|]. intros u4 c4 A4 E4. rewrite <- E4. clear E4.
  apply rp_then; [apply kc_required|exact A4|apply required_reports; [apply string_own|exact I|exact A4]|]. intros mode c5 A5 E5. rewrite <- E5. clear E5.
  apply rp_then; [apply kc_required|exact A5|apply required_reports; [apply string_own|exact I|exact A5]|]. intros su c6 A6 E6. rewrite <- E6. clear E6.
  apply rp_then; [apply kc_set; auto|exact A6|apply set_reports; auto|]. intros u7 c7 A7 E7. rewrite <- E7. clear E7.
  apply rp_then; [apply kc_bind; [apply kc_send; auto|intros; apply kc_com]|exact A7|apply rp_sent; [exact A7|auto|]; intros d Cd; rewrite <- Cd; apply com_reports|].
  intros u8 c8 A8 E8. rewrite <- E8. clear E8.
  apply rp_sent; [exact A8|auto|]. intros d Cd. rewrite <- Cd. eapply rp_iff; [|apply (start_reports_rel (beqb alg (str "CRC32")) o d)]. intros v ms. cbv beta.
  assert (B : beqb alg (str "CRC32") = true <-> alg = str "CRC32") by (destruct (beqb_spec alg (str "CRC32")); split; intros; try reflexivity; try assumption; try discriminate; contradiction). split.
  - intros H. exists (beqb alg (str "CRC32")). auto.
  - intros (cs & I1 & H). replace (beqb alg (str "CRC32")) with cs; [exact H|]. destruct cs, (beqb alg (str "CRC32")); try reflexivity; [symmetry; apply B, I1; reflexivity|apply I1, B; reflexivity].
Qed.

(** ** Events *)
Lemma event_loop_delivers_rel crc s f : forall c, (length (arriving c) < f)%nat -> delivers (next_event_loop_rel crc f s) c (release_event_reply crc s).
Proof.
  set (ck := p_checksum (s_pv4 s)). set (vl := s_validate s).
  induction f as [|f IH]; intros c Hf; [lia|]. cbn [next_event_loop_rel]. unfold recv_and_parse_event_rel.
  apply (dl_at _ (ibind recv_msg (fun m => e <~ (match m with
    | [] => ierr (EIncomplete None)
    | header :: msg =>
      if s_non_block s && (b2n header =? 0xfe) then iret SeEnd
      else if negb (b2n header =? 0) then ierr EPacket
      else o <~ parse (parse_event_rel crc (s_pv4 s) (s_validate s)) msg ;; iret (match o with Some e => SeSingle e | None => SeUnsupported end) end) ;;
      match e with SeSingle e => iret (Some e) | SeUnsupported => next_event_loop_rel crc f s | SeEnd => iret None end)) c c); [|reflexivity|].
  { unfold ibind at 1 2. unfold ibind at 2. destruct (recv_msg c) as [[m| | |] d]; reflexivity. }
  apply dl_recv; [intros v (e & m & E & _); destruct e; discriminate E|]. intros m d E Cd Sh. unfold release_event_reply. fold ck vl.
  destruct m as [|b m].
  { apply dl_none; [discriminate|]. intros v ms (e & m & E1 & Fo & H). destruct e as [|x e]; cbn [app] in E1.
    - injection E1 as <- ->. destruct v; [destruct H as (? & [=] & _)|destruct H as (_ & ? & [=])].
    - injection E1 as <- _. inversion Fo; subst. destruct H2 as (? & [=] & _). }
  destruct (starts_dec xfe b m) as [S1 S2]. change (b2n xfe) with 254 in *.
  destruct (s_non_block s && (b2n b =? 254)) eqn:B.
  { apply andb_true_iff in B. destruct B as [B1 B2]. specialize (S1 B2). apply (dl_iff _ _ (fun v ms => v = None /\ ms = [])); [|exact (dl_ret None d)]. intros v ms. split.
    - intros [-> ->]. exists [], (b :: m). auto.
    - intros (e & m' & E1 & Fo & H). destruct S1 as (r & S1). injection S1 as -> ->. destruct e as [|x e]; cbn [app] in E1.
      + injection E1 as <- ->. destruct v; [destruct H as (? & [=] & _)|auto].
      + injection E1 as <- _. inversion Fo; subst. destruct H2 as (? & [=] & _). }
  assert (NE : s_non_block s = true -> ~ starts_with xfe (b :: m)).
  { intros Hn. rewrite Hn in B. exact (S2 B). }
  clear S1 S2. destruct (starts_dec x00 b m) as [Z1 Z2]. change (b2n x00) with 0 in *. destruct (b2n b =? 0) eqn:B0; cbn [negb].
  - specialize (Z1 eq_refl). destruct Z1 as (r & Z1). injection Z1 as -> ->.
    pose proof (tm_of _ _ (accepts_event_rel crc (s_pv4 s) (s_validate s)) r) as Te. fold ck vl in Te.
    assert (Em : forall o, release_event_message crc ck vl o (x00 :: r) <-> fst (parse_event_rel crc (s_pv4 s) vl r) = Ok o).
    { intros o. rewrite Te. split; [intros (body & Eb & H); injection Eb as <-; exact H|]. intros H. exists r. auto. }
    destruct (fst (parse_event_rel crc (s_pv4 s) vl r)) as [[e|]|e| |] eqn:P.
    + apply (dl_at _ (iret (Some e)) d d); [unfold ibind, parse, ilift; fold vl; rewrite P; reflexivity|reflexivity|]. eapply dl_iff; [|apply dl_ret]. intros v ms. split.
      * intros [-> ->]. exists [], (x00 :: r). split; [reflexivity|]. split; [constructor|]. apply Em. reflexivity.
      * intros (el & m' & E1 & Fo & H). destruct el as [|x el]; cbn [app] in E1.
        { injection E1 as <- ->. destruct v; [apply Em in H; split; [congruence|reflexivity]|destruct H as (_ & ? & [=])]. }
        injection E1 as <- _. inversion Fo; subst. apply Em in H2. discriminate H2.
    + apply (dl_at _ (next_event_loop_rel crc f s) d d); [unfold ibind, parse, ilift; fold vl; rewrite P; reflexivity|reflexivity|]. eapply dl_iff; [|apply IH; lia]. intros v ms. unfold release_event_reply. fold ck vl. split.
      * intros (el & m' & -> & Fo & H). exists ((x00 :: r) :: el), m'. split; [reflexivity|]. split; [|exact H]. constructor; [|exact Fo]. apply Em. reflexivity.
      * intros (el & m' & E1 & Fo & H). destruct el as [|x el]; cbn [app] in E1.
        { injection E1 as <- ->. destruct v; [apply Em in H; discriminate H|destruct H as (_ & ? & [=])]. }
        injection E1 as <- ->. inversion Fo; subst. exists el, m'. auto.
    + apply dl_none; [unfold ibind, parse, ilift; fold vl; rewrite P; discriminate|]. intros v ms (el & m' & E1 & Fo & H). destruct el as [|x el]; cbn [app] in E1.
      { injection E1 as <- ->. destruct v; [apply Em in H; discriminate H|destruct H as (_ & ? & [=])]. }
      injection E1 as <- _. inversion Fo; subst. apply Em in H2. discriminate H2.
    + apply dl_none; [unfold ibind, parse, ilift; fold vl; rewrite P; discriminate|]. intros v ms (el & m' & E1 & Fo & H). destruct el as [|x el]; cbn [app] in E1.
      { injection E1 as <- ->. destruct v; [apply Em in H; discriminate H|destruct H as (_ & ? & [=])]. }
      injection E1 as <- _. inversion Fo; subst. apply Em in H2. discriminate H2.
    + apply dl_none; [unfold ibind, parse, ilift; fold vl; rewrite P; discriminate|]. intros v ms (el & m' & E1 & Fo & H). destruct el as [|x el]; cbn [app] in E1.
      { injection E1 as <- ->. destruct v; [apply Em in H; discriminate H|destruct H as (_ & ? & [=])]. }
      injection E1 as <- _. inversion Fo; subst. apply Em in H2. discriminate H2.
  - specialize (Z2 eq_refl). apply dl_none; [discriminate|]. intros v ms (e & m' & E1 & Fo & H). destruct e as [|x e]; cbn [app] in E1.
    + injection E1 as <- ->. destruct v; [destruct H as (? & H & _); apply Z2; eexists; exact H|destruct H as (Hn & H); exact (NE Hn H)].
    + injection E1 as <- _. inversion Fo; subst. destruct H2 as (? & H2 & _). apply Z2. eexists. exact H2.
Qed.
Lemma event_delivers_rel crc s c : s_completed s = false -> delivers (next_event_rel crc s) c (release_event_reply crc s).
Proof.
  intros Hc. apply (dl_at _ (fun c => next_event_loop_rel crc (S (sched_len (c_rd c))) s c) c c); [unfold next_event_rel; rewrite Hc; reflexivity|reflexivity|].
  apply (dl_rounds (fun f => next_event_loop_rel crc f s)). intros f. apply event_loop_delivers_rel.
Qed.

(** ** Rows of the binary protocol *)
Lemma bind_ok {A B} (p p' : parser A) (f f' : A -> parser B) :
  (forall bs v r, p' bs = (Ok v, r) <-> p bs = (Ok v, r)) -> (forall a bs v r, f' a bs = (Ok v, r) <-> f a bs = (Ok v, r)) ->
  forall bs v r, pbind p' f' bs = (Ok v, r) <-> pbind p f bs = (Ok v, r).
Proof.
  intros P F bs v r. unfold pbind. destruct (p' bs) as [x' r'] eqn:E', (p bs) as [x r0] eqn:E. split.
  - destruct x' as [a| | |]; try discriminate. apply P in E'. rewrite E in E'. injection E' as -> ->. apply F.
  - destruct x as [a| | |]; try discriminate. apply P in E. rewrite E' in E. injection E as -> ->. apply F.
Qed.
Lemma binary_value_rel ct bs v r : read_binary_value_rel ct bs = (Ok v, r) <-> read_binary_value ct bs = (Ok v, r).
Proof.
  destruct ct; try reflexivity. unfold read_binary_value_rel, read_binary_value, pmap. apply bind_ok; [|reflexivity]. clear. intros bs v r.
  unfold read_le_f64_rel, read_le_f64. destruct (length bs <? 8)%nat; [|reflexivity]. split; [discriminate|]. destruct (csub 4 (blen bs)); discriminate.
Qed.
Lemma binary_cols_rel cts bits : forall idx bs v r, read_binary_cols_rel cts bits idx bs = (Ok v, r) <-> read_binary_cols cts bits idx bs = (Ok v, r).
Proof.
  induction cts as [|ct cts IH]; intros idx; [reflexivity|]. cbn [read_binary_cols_rel read_binary_cols]. apply bind_ok; [reflexivity|]. intros [null|]; [|reflexivity].
  apply bind_ok; [destruct null; [reflexivity|apply binary_value_rel]|]. intros x. apply bind_ok; [apply IH|reflexivity].
Qed.
Lemma binary_takes_rel rs : takes_message (binary_rows_rel rs) (fun row m => fields [binary_row_layout (rs_col_types rs) row; leftover] m).
Proof.
  intros bs row. rewrite <- (binary_takes rs bs row). unfold binary_rows_rel, binary_rows, read_binary_row_rel, read_binary_row.
  assert (K : forall A (p q : parser A), (forall bs v r, p bs = (Ok v, r) <-> q bs = (Ok v, r)) -> forall bs v, fst (p bs) = Ok v <-> fst (q bs) = Ok v).
  { intros A p q H b v. destruct (p b) as [x r] eqn:E, (q b) as [y r'] eqn:E'. cbn [fst]. split; intros ->; [apply H in E|apply H in E']; congruence. }
  apply K. apply bind_ok; [reflexivity|]. intros _. cbv zeta. apply bind_ok; [reflexivity|]. intros nb. apply binary_cols_rel.
Qed.
