(** * What a login and a change of user report *)
From Coq Require Import Strings.String.
From Coq Require Import List NArith ZArith Lia Arith Bool.
From Verif Require Import Model.Base Model.BytesParser Model.LenEnc Model.Utf8 Model.Conn Model.Flags Model.Packet Model.Auth Model.Cmd Model.Col
  Model.Session Spec.Nums Spec.LenEncSpec Spec.Framing Spec.Programs Spec.Packets Spec.ResultSets Spec.Hostile Spec.HostileExact Spec.Accepts Spec.Verdicts
  Proofs.BaseLemmas Proofs.BytesParserProofs Proofs.ConnProofs Proofs.AuthProofs Proofs.CommandProofs Proofs.SessionProofs Proofs.ScheduleProofs Proofs.HostileProofs Proofs.HostileExactProofs
  Proofs.AcceptsProofs Proofs.AcceptsPackets Proofs.VerdictsProofs.
Import ListNotations.
Open Scope N_scope.

Lemma pl_until b n : plain (read_until b n).
Proof. intros bs e. unfold read_until. repeat match goal with |- context [match ?x with _ => _ end] => destruct x end; cbn [fst]; intros [= <-]; exact I. Qed.
Lemma pl_csub a b : plain (plift (csub a b)).
Proof. apply pl_lift. intros e. unfold csub. destruct (_ <? _) || destruct (_ <=? _); intros [=]. Qed.
Lemma pl_greeting : plain read_initial_handshake.
Proof. pose proof (pl_until x00 false). unfold read_initial_handshake. cbv zeta. pl. apply pl_csub. Qed.
Lemma pl_switch : plain read_auth_switch. Proof. pose proof (pl_until x00 false). unfold read_auth_switch. pl. Qed.
Lemma pl_more : plain read_auth_more. Proof. unfold read_auth_more. pl. Qed.
Lemma pl_login cap : plain (read_handshake_message cap).
Proof. pose proof (pl_ok cap). pose proof (pl_err cap false). pose proof pl_switch. pose proof pl_more. unfold read_handshake_message. plh. Qed.
Lemma pl_user cap : plain (read_change_user_response cap).
Proof. pose proof (pl_ok cap). pose proof (pl_err cap true). pose proof pl_switch. pose proof pl_more. unfold read_change_user_response. plh. Qed.

Lemma rp_reply {A} msg (k : unit -> io A) c L : accepting (c_ws c) -> c_pkt_nr c < 256 ->
  (forall d, c_cap d = c_cap c -> arriving d = arriving c -> accepting (c_ws d) -> reports (k tt) d L) -> reports (ibind (send_msg false msg false) k) c L.
Proof.
  intros Ac Lp H. destruct (send_msg_spec false c msg false Ac) as (seqs & w & d & E & _ & _ & _ & _ & _ & Ad & Sb); [exact Lp|left; reflexivity|].
  pose proof (send_keeps _ _ _ _ _ _ E) as K. destruct Sb as (_ & Sb & _). specialize (H d).
  intros v rest. rewrite (ibind_ok _ _ _ _ _ E). rewrite <- K. apply H; [congruence|exact K|exact Ad].
Qed.
Lemma rp_at {A} (m m' : io A) c c' L : m c = m' c' -> arriving c = arriving c' -> reports m' c' L -> reports m c L.
Proof. intros E A0 R v rest. rewrite E, A0. apply R. Qed.
Lemma more_is p m : more_layout p m <-> exists data, m = x01 :: data /\ p = mk_more 1 data.
Proof.
  split.
  - intros [H F]. destruct p as [h data]. cbn [am_header am_data] in *. subst h. exists data. split; [|reflexivity].
    pose proof (proj2 (accepts_more m (mk_more 1 data)) (conj eq_refl F)) as R. destruct m as [|b m]; [discriminate R|]. unfold read_auth_more, pbind, read_u8 in R.
    destruct (N.eqb_spec (b2n b) 1) as [B|B]; cbn [negb] in R; [|discriminate R]. cbn in R. injection R as _ <-. rewrite <- (n2b_b2n b), B. reflexivity.
  - intros (data & -> & ->). apply accepts_more. reflexivity.
Qed.

Section Login.
  Variable sha1 sha256 : bytes -> bytes.
  Definition login_after (cap : N) (p : auth_plugin) (v : verdict unit) (ms : list bytes) : Prop :=
    v = Done tt /\ exists more m, ms = more ++ [m] /\ takes sha1 sha256 p more /\ completion cap m.
  Lemma no_login cap p v : ~ login_after cap p v [].
  Proof. intros (_ & more & m & E & _). destruct more; discriminate E. Qed.
  Lemma login_ok cap p v m ms : starts_with x00 m -> login_after cap p v (m :: ms) <-> v = Done tt /\ ms = [] /\ completion cap m.
  Proof.
    intros S. split.
    - intros (-> & more & m' & E & T & C). destruct more as [|x more]; cbn [app] in E; injection E as <- ->; [auto|].
      destruct T as (data & -> & _). destruct S as (r & S). discriminate S.
    - intros (-> & -> & C). split; [reflexivity|]. exists [], m. split; [reflexivity|]. split; [exact I|exact C].
  Qed.
  Lemma login_more cap p v data ms : login_after cap p v ((x01 :: data) :: ms) <->
    exists resp, fst (auth_next sha1 sha256 p data) = Ok resp /\ login_after cap (snd (auth_next sha1 sha256 p data)) v ms.
  Proof.
    split.
    - intros (-> & more & m' & E & T & C). destruct more as [|x more]; cbn [app] in E.
      + injection E as <- ->. destruct C as [(r & S) _]. discriminate S.
      + injection E as <- ->. destruct T as (dt & X & resp & A & T). injection X as <-. exists resp. split; [exact A|]. split; [reflexivity|]. exists more, m'. auto.
    - intros (resp & A & -> & more & m' & -> & T & C). split; [reflexivity|]. exists ((x01 :: data) :: more), m'. split; [reflexivity|]. split; [|exact C].
      exists data. split; [reflexivity|]. exists resp. auto.
  Qed.
  Lemma login_else cap p v m ms : ~ starts_with x00 m -> ~ starts_with x01 m -> ~ login_after cap p v (m :: ms).
  Proof.
    intros N0 N1 (-> & more & m' & E & T & C). destruct more as [|x more]; cbn [app] in E; injection E as <- ->.
    - destruct C as [S _]. auto.
    - destruct T as (data & -> & _). apply N1. eexists. reflexivity.
  Qed.
  Lemma auth_own p data e : quiet p -> fst (auth_next sha1 sha256 p data) = Err e -> own e.
  Proof.
    intros _. destruct p as [[|x pw]|[|x pw] seed st ssl]; cbn [auth_next fst]; try discriminate.
    unfold full_auth. destruct st; cbn [fst]; try discriminate.
    - destruct data as [|b data]; [intros [= <-]; exact I|]. destruct (b2n b =? 3); [discriminate|]. destruct (b2n b =? 4); cbn [fst]; destruct ssl; intros [=]; subst; exact I.
    - destruct ssl; intros [=]; subst; exact I.
    - destruct ssl; intros [=]; subst; exact I.
  Qed.
  Lemma rp_own {A} (r : res A) c L : (forall a, r <> Ok a) -> (forall e, r = Err e -> own e) -> (forall v ms, ~ L v ms) -> reports (ilift r) c L.
  Proof.
    intros N O H. apply rp_none; [|exact H]. intros [a|a b s t]; cbn [told ilift fst]; [apply N|]. intros E. apply O in E. exact E.
  Qed.
  Lemma login_loop_reports cap : forall f p c, quiet p -> accepting (c_ws c) -> (length (arriving c) < f)%nat ->
    reports (handshake_loop sha1 sha256 false cap f p) c (login_after cap p).
  Proof.
    induction f as [|f IH]; intros p c Q Ac L; [lia|]. cbn [handshake_loop]. apply rp_recv; [apply no_login|].
    intros m d E Cd Sh. pose proof (recv_next _ _ _ E) as (Ad & Nd & _ & _). specialize (Ad Ac).
    apply (rp_parse (read_handshake_message cap) _ m _ d _ (accepts_handshake_message cap) (pl_login cap)).
    - intros [ok|er|sw|more] H; cbn [handshake_message_layout] in H.
      + destruct H as [S Lp]. eapply rp_iff; [intros v ms; symmetry; apply login_ok, S|].
        eapply rp_iff; [|eapply (rp_at _ (iret tt)); [reflexivity|reflexivity|apply rp_ret]]. intros v ms. cbv beta. split; [intros [-> ->]|intros (-> & -> & _); auto].
        split; [reflexivity|]. split; [reflexivity|]. split; eauto.
      + destruct H as [S _]. apply rp_none; [intros [v|a b s t] T; discriminate T|]. intros v ms. apply login_else; intros S'; pose proof (starts_same _ _ _ S S'); discriminate.
      + pose proof (switch_starts _ _ H) as S. apply rp_none; [intros [v|a b s t] T; discriminate T|]. intros v ms. apply login_else; intros S'; pose proof (starts_same _ _ _ S S'); discriminate.
      + apply more_is in H. destruct H as (data & -> & ->). cbn [am_data]. eapply rp_iff; [intros v ms; symmetry; apply login_more|].
        pose proof (auth_quiet sha1 sha256 p data Q) as X. pose proof (auth_own p data) as O.
        destruct (auth_next sha1 sha256 p data) as [r p'] eqn:Ea. cbn [fst snd] in *. destruct X as (R & Q' & _).
        destruct R as [[resp ->]|[e ->]].
        * assert (Go : forall d', c_cap d' = c_cap d -> arriving d' = arriving d -> accepting (c_ws d') -> reports (handshake_loop sha1 sha256 false cap f p') d' (fun v ms => exists resp0, Ok resp = Ok resp0 /\ login_after cap p' v ms)).
          { intros d' _ A A'. eapply rp_iff; [|apply IH; [exact Q'|exact A'|rewrite A; lia]]. intros v ms. split; [eauto|]. intros (r & _ & H). exact H. }
          eapply (rp_at _ (_ <~ (match resp with [] => iret tt | _ => send_msg false resp false end) ;; handshake_loop sha1 sha256 false cap f p') d d); [reflexivity|reflexivity|].
          destruct resp as [|b resp].
          -- eapply (rp_at _ (handshake_loop sha1 sha256 false cap f p') d d); [reflexivity|reflexivity|]. apply Go; auto.
          -- apply rp_reply; [exact Ad|exact Nd|exact Go].
        * apply rp_none.
          -- intros [v|a b s t] T; cbn in T; [discriminate T|]. injection T as ->. specialize (O _ Q eq_refl). exact O.
          -- intros v ms (r & Z & _). discriminate Z.
    - intros v ms (-> & more & m' & Em & T & C). destruct more as [|x more]; cbn [app] in Em; injection Em as <- ->.
      + destruct C as [S (p' & Lp)]. exists (HmOk p'). split; assumption.
      + destruct T as (data & -> & _). exists (HmMore (mk_more 1 data)). apply more_is. eauto.
  Qed.

  (** the capabilities of a login *)
  Lemma login_caps_bits cap : cap_protocol_41 (login_caps cap) = true /\ cap_session_track (login_caps cap) = cap_session_track cap.
  Proof.
    unfold login_caps, remove, insert, cap_protocol_41, cap_session_track. cbn [fold_left]. rewrite !N.ldiff_spec, !N.lor_spec.
    change (N.testbit PROTOCOL_41 9) with true. change (N.testbit SSL 9) with false. change (N.testbit SSL 23) with false.
    split; [destruct (N.testbit cap 9), (N.testbit PLUGIN_AUTH 9), (N.testbit LONG_PASSWORD 9); reflexivity|].
    change (N.testbit PLUGIN_AUTH 23) with false. change (N.testbit LONG_PASSWORD 23) with false. change (N.testbit PROTOCOL_41 23) with false. change (N.testbit TRANSACTIONS 23) with false.
    change (N.testbit MULTI_RESULTS 23) with false. change (N.testbit SECURE_CONNECTION 23) with false. change (N.testbit DEPRECATE_EOF 23) with false. change (N.testbit PLUGIN_AUTH_LENENC_CLIENT_DATA 23) with false.
    rewrite !orb_false_r, andb_true_r. reflexivity.
  Qed.
  Lemma with_db_bits cap : cap_protocol_41 (insert cap CONNECT_WITH_DB) = cap_protocol_41 cap /\ cap_session_track (insert cap CONNECT_WITH_DB) = cap_session_track cap.
  Proof. unfold insert, cap_protocol_41, cap_session_track. rewrite !N.lor_spec. change (N.testbit CONNECT_WITH_DB 9) with false. change (N.testbit CONNECT_WITH_DB 23) with false. rewrite !orb_false_r. auto. Qed.
  Lemma completion_bits cap cap' m : cap_protocol_41 cap = true -> cap_protocol_41 cap' = true -> cap_session_track cap = cap_session_track cap' -> completion cap m -> completion cap' m.
  Proof. intros P P' T [S (p & Lp)]. split; [exact S|]. exists p. revert Lp. unfold ok_layout. rewrite P, P', T. cbn [orb]. auto. Qed.
  Lemma login_completes cap track m : cap_protocol_41 cap = true -> cap_session_track cap = track -> completion cap m <-> login_completion track m.
  Proof.
    intros P T. split; [intros C; exists cap; auto|]. intros (cap' & P' & T' & C). eapply completion_bits; [exact P'|exact P|congruence|exact C].
  Qed.

  (** the methods *)
  Lemma starts_method plugin pw seed :
    (exists p0 resp p, new_auth_plugin plugin = Ok p0 /\ gen_init_auth_resp sha1 sha256 p0 pw seed = (Ok resp, p) /\ quiet p /\ forall l, takes sha1 sha256 p l <-> lets_pass plugin pw l) \/
    (new_auth_plugin plugin = Err ECustom /\ forall l, ~ lets_pass plugin pw l).
  Proof.
    unfold new_auth_plugin. destruct (beqb_spec plugin (str "mysql_native_password")) as [Pl|Pl]; [|destruct (beqb_spec plugin (str "caching_sha2_password")) as [Pl2|Pl2]].
    - left. assert (Tk : forall l, takes sha1 sha256 (Native pw) l <-> lets_pass plugin pw l).
      { intros l. rewrite takes_all by exact I. unfold lets_pass. rewrite Pl. split; [intros F; left; auto|]. intros [[_ F]|(Z & _)]; [exact F|discriminate Z]. }
      unfold gen_init_auth_resp, set_credential. destruct pw as [|x pw]; (eexists; eexists; eexists; split; [reflexivity|]; split; [reflexivity|]; split; [|exact Tk]; exact I || reflexivity).
    - left. unfold gen_init_auth_resp, set_credential. destruct pw as [|x pw].
      + eexists; eexists; eexists; split; [reflexivity|]; split; [reflexivity|]; split; [reflexivity|].
        intros l. rewrite takes_all by reflexivity. unfold lets_pass. split; [intros F; left; auto|]. intros [[_ F]|(_ & Z & _)]; [exact F|contradiction].
      + eexists; eexists; eexists; split; [reflexivity|]; split; [reflexivity|]; split; [reflexivity|].
        intros l. rewrite takes_once. unfold lets_pass. split.
        * intros F. right. split; [exact Pl2|]. split; [discriminate|exact F].
        * intros [[[Z|[_ Z]] _]|(_ & _ & F)]; [contradiction|discriminate Z|exact F].
    - right. split; [reflexivity|]. intros l [[[Z|[Z _]] _]|(Z & _)]; contradiction.
  Qed.

  Lemma login_reports opts c : accepting (c_ws c) -> reports (handshake sha1 sha256 false opts) c (login_reply (c_cap c) (o_password opts)).
  Proof.
    intros Ac. unfold handshake. apply rp_recv; [intros v (_ & g & hs & more & m & E & _); discriminate E|].
    intros m d E Cd Sh. pose proof (recv_next _ _ _ E) as (Ad & Nd & _ & _). specialize (Ad Ac).
    pose proof (tm_of _ _ accepts_greeting) as Tg.
    apply (rp_parse read_initial_handshake _ m _ d _ Tg pl_greeting).
    2:{ intros v ms (_ & g & hs & more & m' & X & F & _). injection X as <- _. exists hs. exact F. }
    intros hs Lh.
    assert (One : forall v ms, login_reply (c_cap c) (o_password opts) v (m :: ms) <-> v = Done tt /\ exists more m', ms = more ++ [m'] /\
      lets_pass (hs_plugin hs) (o_password opts) more /\ login_completion (cap_session_track (c_cap c)) m').
    { intros v ms. split.
      - intros (-> & g & hs' & more & m' & X & F & H). injection X as <- ->. apply Tg in F, Lh. assert (hs' = hs) as -> by congruence. split; [reflexivity|]. exists more, m'. tauto.
      - intros (-> & more & m' & -> & H). split; [reflexivity|]. exists m, hs, more, m'. tauto. }
    eapply rp_iff; [intros v ms; symmetry; apply One|]. clear One. cbv zeta.
    destruct (starts_method (hs_plugin hs) (o_password opts) (hs_auth_data_1 hs ++ hs_auth_data_2 hs)) as [(p0 & resp & p & En & Eg & Q & Tk)|[En No]].
    2:{ apply rp_none; [intros [v|a b s t]; unfold ibind, ilift; rewrite En; discriminate|]. intros v ms (_ & more & m' & _ & Z & _). exact (No _ Z). }
    set (d1 := match o_database opts with [] => set_cap d (login_caps (c_cap d)) | _ => set_cap (set_cap d (login_caps (c_cap d))) (insert (login_caps (c_cap d)) CONNECT_WITH_DB) end).
    set (k := fun c => let cap := c_cap c in let r := mk_hr cap 0xffffff 33 (o_username opts) resp (o_database opts) (hs_plugin hs) [] in
      (_ <~ send_msg false (write_handshake_response r) false ;; fun c => handshake_loop sha1 sha256 false cap (S (sched_len (c_rd c))) p c) c).
    apply (rp_at _ k d d1).
    { unfold ibind at 1. cbn [fst snd]. unfold ibind at 1, ilift. rewrite En. rewrite Eg. unfold d1, k. destruct (o_database opts); reflexivity. }
    { unfold d1. destruct (o_database opts); reflexivity. }
    assert (B : cap_protocol_41 (c_cap d1) = true /\ cap_session_track (c_cap d1) = cap_session_track (c_cap c) /\ accepting (c_ws d1) /\ c_pkt_nr d1 < 256).
    { pose proof (login_caps_bits (c_cap d)) as [B1 B2]. pose proof (with_db_bits (login_caps (c_cap d))) as [B3 B4]. unfold d1. destruct (o_database opts); cbn [c_cap set_cap c_ws c_pkt_nr]; rewrite ?B3, ?B4, B1, B2, Cd; auto. }
    destruct B as (B1 & B2 & Ad1 & Nd1). unfold k. cbv zeta.
    apply (rp_reply (write_handshake_response (mk_hr (c_cap d1) 0xffffff 33 (o_username opts) resp (o_database opts) (hs_plugin hs) [])) (fun _ c => handshake_loop sha1 sha256 false (c_cap d1) (S (sched_len (c_rd c))) p c)); [exact Ad1|exact Nd1|].
    intros d2 _ A2 Ad2. apply (rp_rounds (fun f => handshake_loop sha1 sha256 false (c_cap d1) f p)). intros f Lf.
    eapply rp_iff; [|apply login_loop_reports; [exact Q|exact Ad2|exact Lf]]. intros v ms. unfold login_after.
    split; intros (-> & more & m' & -> & T & C); (split; [reflexivity|]); exists more, m'; (split; [reflexivity|]); (split; [apply Tk; exact T|]); apply (login_completes (c_cap d1) _ _ B1 B2); exact C.
  Qed.

  (** *** Change of user *)
  Definition takes_opt (p : option auth_plugin) (more : list bytes) : Prop := match p with None => more = [] | Some p => takes sha1 sha256 p more end.
  Definition user_after (cap : N) (pw : bytes) (p : option auth_plugin) (v : verdict unit) (ms : list bytes) : Prop :=
    exists more attempts m, ms = more ++ concat attempts ++ [m] /\ takes_opt p more /\ Forall (attempt pw) attempts /\ plain_reply cap v [m].
  Lemma no_user cap pw p v : ~ user_after cap pw p v [].
  Proof. intros (more & atts & m & E & _). destruct more; [destruct (concat atts)|]; discriminate E. Qed.
  Lemma plain_starts cap v m : plain_reply cap v [m] -> (starts_with x00 m /\ exists p, ok_layout cap p m) \/ (starts_with xff m /\ exists p, err_layout cap true p m).
  Proof.
    intros [(_ & m' & E & C)|H]; [injection E as <-; left; exact C|]. right. apply refusal_start in H. exact H.
  Qed.
  (** what the first message is *)
  Lemma user_cases cap pw p v m ms : user_after cap pw p v (m :: ms) ->
    (exists q data resp, p = Some q /\ m = x01 :: data /\ fst (auth_next sha1 sha256 q data) = Ok resp /\ user_after cap pw (Some (snd (auth_next sha1 sha256 q data))) v ms) \/
    (exists sw more attempts m', switch_layout sw m /\ lets_pass (sw_plugin sw) pw more /\ Forall (attempt pw) attempts /\ plain_reply cap v [m'] /\ ms = more ++ concat attempts ++ [m']) \/
    (ms = [] /\ plain_reply cap v [m]).
  Proof.
    intros (more & atts & m' & E & T & F & P). destruct more as [|x more].
    - right. destruct atts as [|a atts].
      + right. cbn in E. injection E as -> ->. auto.
      + left. inversion F as [|? ? (sw & ms0 & more & -> & Ls & Lp) F']; subst. cbn in E. injection E as -> ->. exists sw, more, atts, m'. rewrite <- app_assoc. auto 10.
    - left. cbn in E. injection E as -> ->. destruct p as [q|]; [|discriminate T]. destruct T as (data & -> & resp & A & T). exists q, data, resp.
      split; [reflexivity|]. split; [reflexivity|]. split; [exact A|]. exists more, atts, m'. auto.
  Qed.
  Lemma user_loop_reports pw cap : forall f p c, match p with Some p => quiet p | None => True end -> c_cap c = cap -> accepting (c_ws c) -> (length (arriving c) < f)%nat ->
    reports (change_user_loop sha1 sha256 false pw f p) c (user_after cap pw p).
  Proof.
    induction f as [|f IH]; intros p c Q Cc Ac L; [lia|]. cbn [change_user_loop]. apply rp_recv; [apply no_user|].
    intros m d E Cd Sh. pose proof (recv_next _ _ _ E) as (Ad & Nd & _ & _). specialize (Ad Ac). rewrite Cc in Cd.
    assert (Re : forall q resp, quiet q -> reports (_ <~ send_msg false resp false ;; change_user_loop sha1 sha256 false pw f (Some q)) d (user_after cap pw (Some q))).
    { intros q resp Qq. apply rp_reply; [exact Ad|exact Nd|]. intros d' C' A' Ac'. apply IH; [exact Qq|congruence|exact Ac'|rewrite A'; lia]. }
    match goal with |- reports (fun c => ?b c) d _ => idtac | _ => idtac end.
    eapply rp_at; [cbv beta; rewrite Cd; reflexivity|reflexivity|].
    apply (rp_parse (read_change_user_response cap) _ m _ d _ (accepts_change_user cap) (pl_user cap)).
    - intros [er|sw|ok|more] H; cbn [change_user_layout] in H.
      + destruct H as [S Lp]. eapply rp_iff; [|apply (rp_error cap er m); assumption]. intros v ms. split.
        * intros H. destruct H as (q & m1 & X & H). injection X as <- ->. exists [], [], m. split; [reflexivity|]. split; [destruct p; [exact I|reflexivity]|]. split; [constructor|].
          right. exists q, m. auto.
        * intros H. apply user_cases in H. destruct H as [(q & data & resp & _ & -> & _)|[(sw & more & atts & m' & Ls & _)|[-> P]]].
          -- destruct S as (r & S). discriminate S.
          -- apply switch_starts in Ls. pose proof (starts_same _ _ _ S Ls). discriminate.
          -- apply (plain_err cap v m [] S). exact P.
      + pose proof (switch_starts _ _ H) as S.
        assert (Sw : forall v ms, user_after cap pw p v (m :: ms) <-> exists more attempts m', lets_pass (sw_plugin sw) pw more /\ Forall (attempt pw) attempts /\ plain_reply cap v [m'] /\ ms = more ++ concat attempts ++ [m']).
        { intros v ms. split.
          - intros X. apply user_cases in X. destruct X as [(q & data & resp & _ & -> & _)|[(sw' & more & atts & m' & Ls & R)|[-> P]]].
            + destruct S as (r & S). discriminate S.
            + apply accepts_switch in Ls, H. assert (sw' = sw) as -> by congruence. exists more, atts, m'. exact R.
            + apply plain_starts in P. destruct P as [[S' _]|[S' _]]; pose proof (starts_same _ _ _ S S'); discriminate.
          - intros (more & atts & m' & Lp & F & P & ->). exists [], ((m :: more) :: atts), m'. split; [cbn; rewrite <- app_assoc; reflexivity|].
            split; [destruct p; [exact I|reflexivity]|]. split; [constructor; [|exact F]|exact P]. exists sw, m, more. auto. }
        eapply rp_iff; [intros v ms; symmetry; apply Sw|]. clear Sw.
        destruct (starts_method (sw_plugin sw) pw (sw_data sw)) as [(p0 & resp & p1 & En & Eg & Q1 & Tk)|[En No]].
        * eapply (rp_at _ (_ <~ send_msg false resp false ;; change_user_loop sha1 sha256 false pw f (Some p1)) d d); [|reflexivity|].
          { unfold ibind at 1, ilift. rewrite En. rewrite Eg. reflexivity. }
          eapply rp_iff; [|apply Re, Q1]. intros v ms. unfold user_after, takes_opt. split.
          -- intros (more & atts & m' & -> & T & F & P). exists more, atts, m'. split; [apply Tk, T|]. auto.
          -- intros (more & atts & m' & T & F & P & ->). exists more, atts, m'. split; [reflexivity|]. split; [apply Tk, T|]. auto.
        * apply rp_none; [intros [v|a b s t]; unfold ibind, ilift; rewrite En; discriminate|]. intros v ms (more & atts & m' & Z & _). exact (No _ Z).
      + destruct H as [S Lp]. eapply rp_iff; [|apply rp_ret]. intros v ms. cbv beta. split.
        * intros [-> ->]. exists [], [], m. split; [reflexivity|]. split; [destruct p; [exact I|reflexivity]|]. split; [constructor|]. left. split; [reflexivity|]. exists m. split; [reflexivity|]. split; eauto.
        * intros H. apply user_cases in H. destruct H as [(q & data & resp & _ & -> & _)|[(sw & more & atts & m' & Ls & _)|[-> P]]].
          -- destruct S as (r & S). discriminate S.
          -- apply switch_starts in Ls. pose proof (starts_same _ _ _ S Ls). discriminate.
          -- apply (plain_ok cap v m []); [split; eauto|exact P].
      + apply more_is in H. destruct H as (data & -> & ->). cbn [am_data]. destruct p as [q|].
        * assert (Mo : forall v ms, user_after cap pw (Some q) v ((x01 :: data) :: ms) <-> exists resp, fst (auth_next sha1 sha256 q data) = Ok resp /\ user_after cap pw (Some (snd (auth_next sha1 sha256 q data))) v ms).
          { intros v ms. split.
            - intros H. apply user_cases in H. destruct H as [(q' & dt & resp & X & Y & A & U)|[(sw & more & atts & m' & Ls & _)|[-> P]]].
              + injection X as <-. injection Y as <-. eauto.
              + apply switch_starts in Ls. destruct Ls as (r & Z). discriminate Z.
              + apply plain_starts in P. destruct P as [[(r & Z) _]|[(r & Z) _]]; discriminate Z.
            - intros (resp & A & more & atts & m' & -> & T & F & P). exists ((x01 :: data) :: more), atts, m'. split; [reflexivity|]. split; [|auto].
              exists data. split; [reflexivity|]. exists resp. auto. }
          eapply rp_iff; [intros v ms; symmetry; apply Mo|]. clear Mo.
          pose proof (auth_quiet sha1 sha256 q data Q) as X. pose proof (auth_own q data) as O.
          destruct (auth_next sha1 sha256 q data) as [r p'] eqn:Ea. cbn [fst snd] in *. destruct X as (R & Q' & _). destruct R as [[resp ->]|[e ->]].
          -- eapply (rp_at _ (_ <~ send_msg false resp false ;; change_user_loop sha1 sha256 false pw f (Some p')) d d); [reflexivity|reflexivity|].
             eapply rp_iff; [|apply Re, Q']. intros v ms. split; [eauto|]. intros (r & _ & H). exact H.
          -- apply rp_none.
             ++ intros [v|a b s t] T; cbn in T; [discriminate T|]. injection T as ->. specialize (O _ Q eq_refl). exact O.
             ++ intros v ms (r & Z & _). discriminate Z.
        * apply rp_none; [intros [v|a b s t] T; discriminate T|]. intros v ms H. apply user_cases in H. destruct H as [(q & dt & resp & X & _)|[(sw & more & atts & m' & Ls & _)|[-> P]]].
          -- discriminate X.
          -- apply switch_starts in Ls. destruct Ls as (r & Z). discriminate Z.
          -- apply plain_starts in P. destruct P as [[(r & Z) _]|[(r & Z) _]]; discriminate Z.
    - intros v ms H. apply user_cases in H. destruct H as [(q & data & resp & _ & -> & _)|[(sw & more & atts & m' & Ls & _)|[-> P]]].
      + exists (CuMore (mk_more 1 data)). apply more_is. eauto.
      + exists (CuSwitch sw). exact Ls.
      + apply plain_starts in P. destruct P as [[S (q & Lq)]|[S (q & Lq)]]; [exists (CuOk q)|exists (CuErr q)]; split; assumption.
  Qed.
  Lemma change_user_reports user pw db attrs c : accepting (c_ws c) -> reports (conn_change_user sha1 sha256 false user pw db attrs) c (user_reply (c_cap c) pw).
  Proof.
    intros Ac. unfold conn_change_user. set (req := new_change_user _ _ _ _ _).
    destruct (send_msg_spec false c (write_change_user (c_cap c) req) true Ac) as (seqs & w & d & E & _ & _ & _ & _ & _ & Ad & Sb); [reflexivity|left; reflexivity|].
    pose proof (send_keeps _ _ _ _ _ _ E) as K. destruct Sb as (_ & Sb & _).
    apply (rp_at _ (fun c => change_user_loop sha1 sha256 false pw (S (sched_len (c_rd c))) None c) c d); [rewrite (ibind_ok _ _ _ _ _ E); reflexivity|symmetry; exact K|].
    apply (rp_rounds (fun f => change_user_loop sha1 sha256 false pw f None)). intros f Lf. eapply rp_iff; [|apply (user_loop_reports pw (c_cap c)); [exact I|congruence|exact Ad|exact Lf]].
    intros v ms. unfold user_after, user_reply, takes_opt. split.
    - intros (more & atts & m & -> & -> & F & P). exists atts, m. auto.
    - intros (atts & m & -> & F & P). exists [], atts, m. auto.
  Qed.
End Login.
