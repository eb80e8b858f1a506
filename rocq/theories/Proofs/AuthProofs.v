(** * Proofs about authentication (C14, C15) and the login (C49) *)
From Coq Require Import Strings.String.
From Verif Require Import Model.Base Model.BytesParser Model.Flags Model.Packet Model.Conn Model.Auth Model.Utf8 Model.LenEnc
  Spec.Nums Spec.Framing Spec.Wire Spec.Packets Spec.AuthSpec Spec.Session Spec.Sha
  Proofs.BaseLemmas Proofs.CodecProofs Proofs.WireLemmas Proofs.ConnProofs Proofs.PacketProofs.
Open Scope N_scope.

(** ** XOR *)
Lemma lxor_lt256 a b : a < 256 -> b < 256 -> N.lxor a b < 256.
Proof.
  intros Ha Hb. destruct (N.eq_dec (N.lxor a b) 0) as [->|H]; [lia|].
  apply (N.log2_lt_pow2 _ 8); [lia|].
  pose proof (N.log2_lxor a b) as L.
  assert (N.log2 a < 8) by (destruct (N.eq_dec a 0) as [->|]; [reflexivity|apply N.log2_lt_pow2; lia]).
  assert (N.log2 b < 8) by (destruct (N.eq_dec b 0) as [->|]; [reflexivity|apply N.log2_lt_pow2; lia]).
  lia.
Qed.
Lemma xorb8_cancel_r x y : xorb8 (n2b (N.lxor (b2n x) (b2n y))) y = x.
Proof.
  apply b2n_inj. unfold xorb8. fold (b2n y). fold (b2n (n2b (N.lxor (b2n x) (b2n y)))).
  pose proof (lxor_lt256 (b2n x) (b2n y) (b2n_lt x) (b2n_lt y)).
  rewrite (b2n_n2b_small (N.lxor (b2n x) (b2n y))) by assumption.
  rewrite N.lxor_assoc, N.lxor_nilpotent, N.lxor_0_r.
  apply b2n_n2b_small, b2n_lt.
Qed.
Lemma xorb8_cancel_l x y : xorb8 (n2b (N.lxor (b2n x) (b2n y))) x = y.
Proof. rewrite N.lxor_comm. apply xorb8_cancel_r. Qed.

Lemma bxor_zip_r a : forall b, length a = length b -> bxor (xor_zip a b) b = Some a.
Proof.
  induction a as [|x a IH]; intros [|y b] H; try discriminate; [reflexivity|].
  cbn [xor_zip bxor]. rewrite IH by (injection H; auto). rewrite xorb8_cancel_r. reflexivity.
Qed.
Lemma bxor_zip_l a : forall b, length a = length b -> bxor (xor_zip a b) a = Some b.
Proof.
  induction a as [|x a IH]; intros [|y b] H; try discriminate; [reflexivity|].
  cbn [xor_zip bxor]. rewrite IH by (injection H; auto). rewrite xorb8_cancel_l. reflexivity.
Qed.
Lemma xor_zip_length a : forall b, length a = length b -> length (xor_zip a b) = length a.
Proof. induction a as [|x a IH]; intros [|y b] H; try discriminate; [reflexivity|]. cbn. f_equal. apply IH. injection H; auto. Qed.

(** ** seeds *)
Lemma trim_seed_nul s : trim_seed (s ++ [x00]) = s.
Proof. unfold trim_seed. rewrite rev_app_distr. cbn. apply rev_involutive. Qed.
Lemma trim_seed_id s : last s x01 <> x00 -> trim_seed s = s.
Proof.
  intros H. destruct s as [|b s] using rev_ind; [reflexivity|].
  rewrite last_last in H. unfold trim_seed. rewrite rev_app_distr. cbn [rev app]. destruct b; congruence.
Qed.

Section A.
  Variable sha1 sha256 : bytes -> bytes.

  Lemma native_response pw seed : pw <> [] ->
    gen_init_auth_resp sha1 sha256 (Native []) pw seed = (Ok (scramble411 sha1 pw (trim_seed seed)), Native pw).
  Proof. intros H. unfold gen_init_auth_resp, set_credential, auth_next. destruct pw; [congruence|reflexivity]. Qed.

  Lemma scramble411_accepted pw seed : (forall x, length (sha1 x) = 20%nat) ->
    native_accepts sha1 (sha1 (sha1 pw)) seed (scramble411 sha1 pw seed).
  Proof.
    intros H20. exists (sha1 pw). split; [|reflexivity]. apply bxor_zip_l. rewrite !H20. reflexivity.
  Qed.

  Lemma native_accepted pw seed : (forall x, length (sha1 x) = 20%nat) -> pw <> [] ->
    exists resp p, gen_init_auth_resp sha1 sha256 (Native []) pw (seed ++ [x00]) = (Ok resp, p) /\
      native_accepts sha1 (sha1 (sha1 pw)) seed resp /\ length resp = 20%nat.
  Proof.
    intros H20 Hp. do 2 eexists. split; [apply native_response; exact Hp|]. rewrite trim_seed_nul. split.
    - apply scramble411_accepted. exact H20.
    - unfold scramble411. rewrite xor_zip_length; rewrite ?H20; reflexivity.
  Qed.
  Lemma native_accepted' pw seed : (forall x, length (sha1 x) = 20%nat) -> pw <> [] -> last seed x01 <> x00 ->
    exists resp p, gen_init_auth_resp sha1 sha256 (Native []) pw seed = (Ok resp, p) /\
      native_accepts sha1 (sha1 (sha1 pw)) seed resp.
  Proof.
    intros H20 Hp Hl. do 2 eexists. split; [apply native_response; exact Hp|]. rewrite trim_seed_id by exact Hl.
    apply scramble411_accepted. exact H20.
  Qed.
  Lemma empty_password p seed : exists p', gen_init_auth_resp sha1 sha256 p [] seed = (Ok [], p').
  Proof. destruct p; cbn; eexists; reflexivity. Qed.

  (** caching_sha2 *)
  Lemma sha2_scramble_accepted pw nonce : (forall x, length (sha256 x) = 32%nat) ->
    sha2_accepts sha256 (sha256 (sha256 pw)) nonce (scramble_caching_sha2 sha256 pw nonce).
  Proof.
    intros H32. exists (sha256 pw). split; [|reflexivity]. apply bxor_zip_r. rewrite !H32. reflexivity.
  Qed.
  Lemma sha2_ignores_nonce p pw seed : new_auth_plugin (str "caching_sha2_password") = Ok p -> pw <> [] ->
    fst (gen_init_auth_resp sha1 sha256 p pw seed) = Ok (scramble_caching_sha2 sha256 pw []).
  Proof. intros H Hp. injection H as <-. unfold gen_init_auth_resp. cbn. destruct pw; [congruence|reflexivity]. Qed.

  Lemma sha2_flow p pw seed : new_auth_plugin (str "caching_sha2_password") = Ok p -> pw <> [] ->
    exists resp p1, gen_init_auth_resp sha1 sha256 p pw seed = (Ok resp, p1) /\
      (forall rest, exists p2, auth_next sha1 sha256 p1 (x03 :: rest) = (Ok [], p2)) /\
      (forall b rest, b <> x03 -> exists p2, auth_next sha1 sha256 p1 (b :: rest) = (Err ECustom, p2)) /\
      auth_next sha1 sha256 p1 [] = (Err ECustom, p1).
  Proof.
    intros H Hp. injection H as <-. unfold gen_init_auth_resp. cbn. destruct pw as [|b0 pw]; [congruence|].
    do 2 eexists. split; [reflexivity|]. splits.
    - intros rest. eexists. reflexivity.
    - intros b rest Hb. cbn [auth_next].
      destruct (N.eqb_spec (b2n b) 3) as [E|E].
      { destruct Hb. apply b2n_inj. exact E. }
      destruct (b2n b =? 4); eexists; reflexivity.
    - reflexivity.
  Qed.

  (** ** The login *)
  Lemma message_wire_nonempty seqs p w : message_wire seqs p w -> (4 <= length w)%nat.
  Proof.
    intros H. inversion H as [s q w0 H1 (l & [Hl _] & ->)|s q w0 seqs' p' w' H1 (l & [Hl _] & ->)]; subst;
      rewrite !app_length; cbn [length]; lia.
  Qed.
  Lemma delivered_sched s : (length (delivered s) <= sched_len s)%nat.
  Proof.
    induction s as [|x s IH]; [reflexivity|]. destruct x as [|[|b bs]|]; cbn [delivered sched_len]; rewrite ?app_length; cbn [length]; lia.
  Qed.
  Lemma messages_wire_length ps w : messages_wire ps w -> (length ps <= length w)%nat.
  Proof.
    induction 1 as [|p w ps ws seqs H1 H2 IH]; [reflexivity|].
    apply message_wire_nonempty in H1. rewrite app_length. cbn [length]. lia.
  Qed.
  Lemma incoming_fuel c ps d : awaits c ps d -> (length ps <= sched_len (c_rd c))%nat.
  Proof.
    intros (w & H & Hd). apply messages_wire_length in H.
    pose proof (delivered_sched (c_rd c)) as L. rewrite Hd, app_length in L. lia.
  Qed.

  Lemma incoming_cons c p ps d : awaits c (p :: ps) d ->
    exists c', recv_msg c = (Ok p, c') /\ awaits c' ps d /\ same_but_read c c' /\ c_pkt_nr c' < 256.
  Proof.
    intros (w & Hm & Hd). inversion Hm as [|p0 w0 ps0 ws0 seqs H1 H2]; subst.
    rewrite <- app_assoc in Hd. destruct (recv_msg_spec _ _ _ _ _ H1 Hd) as (c' & E1 & E2 & E3 & E4).
    exists c'. splits; auto.
    - exists ws0. auto.
    - rewrite E3. unfold next_seq. lia.
  Qed.

  Lemma handshake_loop_ok checks cap fuel p c header affected insert_id status warnings info state ps d :
    awaits c (ok_wire cap header affected insert_id status warnings info state :: ps) d -> header = 0 ->
    affected < 2 ^ 64 -> insert_id < 2 ^ 64 -> status < 2 ^ 15 -> warnings < 2 ^ 16 ->
    blen info < 2 ^ 64 -> blen state < 2 ^ 64 ->
    exists c', handshake_loop sha1 sha256 checks cap (S fuel) p c = (Ok tt, c') /\ awaits c' ps d /\
      c_status c' = sent_status cap status /\ c_pkt_nr c' = 0 /\ c_out c' = c_out c /\ c_cap c' = c_cap c /\ c_ws c' = c_ws c.
  Proof.
    intros Hi -> H1 H2 H3 H4 H5 H6. destruct (incoming_cons _ _ _ _ Hi) as (c1 & E1 & E2 & (S1 & S2 & S3 & S4) & _).
    cbn [handshake_loop]. rewrite (ibind_ok _ _ _ _ _ E1).
    set (w := ok_wire cap 0 affected insert_id status warnings info state).
    assert (R : read_handshake_message cap w = (Ok (HmOk (mk_ok 0 affected insert_id (sent_status cap status)
       (sent_warnings cap warnings) info (if sends_state cap status then state else []))), [])).
    { change (pmap HmOk (read_ok_packet cap) w = (Ok (HmOk (mk_ok 0 affected insert_id (sent_status cap status)
       (sent_warnings cap warnings) info (if sends_state cap status then state else []))), [])).
      apply pmap_ok. apply ok_decodes; auto. lia. }
    rewrite R. cbn [fst]. unfold ibind at 1, ilift, ibind, reset_pkt_nr.
    eexists. split; [reflexivity|]. cbn. splits; auto.
  Qed.

  (** server asks for more data and the plugin has nothing to add *)
  Lemma handshake_loop_more checks cap fuel p p' c data ps d :
    awaits c (more_wire data :: ps) d -> auth_next sha1 sha256 p data = (Ok [], p') ->
    exists c1, handshake_loop sha1 sha256 checks cap (S fuel) p c = handshake_loop sha1 sha256 checks cap fuel p' c1
      /\ awaits c1 ps d /\ same_but_read c c1.
  Proof.
    intros Hi Hn. destruct (incoming_cons _ _ _ _ Hi) as (c1 & E1 & E2 & S & _).
    exists c1. splits; auto. cbn [handshake_loop]. rewrite (ibind_ok _ _ _ _ _ E1).
    rewrite more_decodes. cbn [fst]. rewrite (ibind_ok _ _ _ (HmMore (mk_more 1 data)) c1 eq_refl).
    cbn [am_data]. rewrite Hn. reflexivity.
  Qed.

  Lemma handshake_loop_err checks cap fuel p c code state msg ps d :
    awaits c (err_wire cap code state msg :: ps) d -> code < 2 ^ 16 -> cap_protocol_41 cap = true ->
    exists c', handshake_loop sha1 sha256 checks cap (S fuel) p c = (Err EPacket, c').
  Proof.
    intros Hi Hc H41. destruct (incoming_cons _ _ _ _ Hi) as (c1 & E1 & E2 & S & _).
    exists c1. cbn [handshake_loop]. rewrite (ibind_ok _ _ _ _ _ E1).
    rewrite handshake_err by assumption. reflexivity.
  Qed.

  Lemma handshake_loop_switch checks cap fuel p c plugin data ps d :
    awaits c (switch_wire plugin data :: ps) d -> no_nul plugin -> utf8_valid plugin = true ->
    exists c', handshake_loop sha1 sha256 checks cap (S fuel) p c = (Panic PUnimplemented, c').
  Proof.
    intros Hi Hc Hu. destruct (incoming_cons _ _ _ _ Hi) as (c1 & E1 & E2 & S & _).
    exists c1. cbn [handshake_loop]. rewrite (ibind_ok _ _ _ _ _ E1).
    rewrite switch_decodes by assumption. reflexivity.
  Qed.

  Lemma client_caps_attrs db : contains (client_caps db) CONNECT_ATTRS = false.
  Proof. destruct db; reflexivity. Qed.

  Lemma opt_length (b : bool) (a : list byte) : blen (if b return list byte then a else []) <= blen a.
  Proof. destruct b; unfold blen; cbn [length]; lia. Qed.
  Lemma login_length r : blen (hr_auth r) < 251 -> contains (hr_cap r) CONNECT_ATTRS = false ->
    blen (write_handshake_response r) <=
      36 + blen (hr_username r) + blen (hr_auth r) + blen (hr_database r) + blen (hr_plugin r).
  Proof.
    intros Hr Ha. unfold write_handshake_response. rewrite Ha, lei_write_wlenenc by lia.
    rewrite !blen_app.
    pose proof (opt_length (contains (hr_cap r) CONNECT_WITH_DB) (hr_database r ++ write_u8 0)) as D.
    pose proof (opt_length (contains (hr_cap r) PLUGIN_AUTH) (hr_plugin r ++ write_u8 0)) as P.
    rewrite blen_app in D, P. change (blen (write_u8 0)) with 1 in *.
    unfold write_le_u32. rewrite <- !wle_to_le. unfold wlenenc. destruct (N.ltb_spec (blen (hr_auth r)) 251); [|lia].
    assert (H4 : forall n, blen (wle 4 n) = 4) by (intros n; unfold blen; rewrite wle_length; reflexivity).
    rewrite !H4. change (blen (repeat x00 23)) with 23. change (blen (write_u8 (hr_charset r))) with 1.
    change (blen [n2b (blen (hr_auth r))]) with 1. change (blen []) with 0. lia.
  Qed.

  Lemma incoming_first c (s : byte) p ps d : awaits_numbered c s p ps d ->
    exists c', recv_msg c = (Ok p, c') /\ awaits c' ps d /\ same_but_read c c' /\ c_pkt_nr c' = next_seq s.
  Proof.
    intros (w & w' & H1 & H2 & Hd). rewrite <- app_assoc in Hd.
    destruct (recv_msg_spec _ _ _ _ _ H1 Hd) as (c' & E1 & E2 & E3 & E4).
    exists c'. splits; auto. exists w'. auto.
  Qed.

  (** everything up to the login packet being sent *)
  Lemma handshake_login checks opts c version conn_id seed_1 cap charset status auth_len seed_2 plugin p0 resp p1 ps d :
    no_nul version -> conn_id < 2 ^ 32 -> length seed_1 = 8%nat -> cap < 2 ^ 32 -> charset < 2 ^ 8 -> status < 2 ^ 16 ->
    auth_len < 2 ^ 8 -> 8 <= auth_len -> blen seed_2 = N.max 13 (auth_len - 8) ->
    cap_secure_connection cap = true -> cap_plugin_auth cap = true ->
    no_nul plugin -> utf8_valid plugin = true -> blen plugin < 2 ^ 20 ->
    new_auth_plugin plugin = Ok p0 ->
    gen_init_auth_resp sha1 sha256 p0 (o_password opts) (seed_1 ++ seed_2) = (Ok resp, p1) ->
    blen resp < 251 -> no_nul (o_username opts) -> no_nul (o_database opts) ->
    blen (o_username opts) < 2 ^ 20 -> blen (o_database opts) < 2 ^ 20 ->
    c_cap c = 0 -> accepting (c_ws c) ->
    awaits_numbered c x00 (greeting_wire version conn_id seed_1 cap charset status auth_len seed_2 plugin) ps d ->
    let caps := client_caps (o_database opts) in
    exists c1 fuel login, handshake sha1 sha256 checks opts c = handshake_loop sha1 sha256 checks caps (S fuel) p1 c1 /\
      (length ps <= fuel)%nat /\
      awaits c1 ps d /\ accepting (c_ws c1) /\ sent c c1 [login] /\ c_cap c1 = caps /\ c_status c1 = c_status c /\
      server_login login = Some (mk_login caps 0xffffff 33 (o_username opts) resp
        (match o_database opts with [] => None | db => Some db end) (Some plugin) None, []).
  Proof.
    intros Hv Hid Hs1 Hcap Hcs Hst Hal H8 Hs2 Hsec Hpa Hp Hu Hpl Hnew Hgen Hr Hun Hdn Hul Hdl Hc0 Hacc Hin caps.
    destruct (incoming_first _ _ _ _ _ Hin) as (c1 & E1 & E2 & (S1 & S2 & S3 & S4) & E3).
    unfold handshake. rewrite (ibind_ok _ _ _ _ _ E1).
    rewrite greeting_decodes by auto. cbn [fst]. rewrite Hsec, Hpa.
    erewrite (ibind_ok (ilift _)) by reflexivity. cbn [hs_auth_data_1 hs_auth_data_2 hs_plugin].
    erewrite (ibind_ok (fun c => (Ok tt, set_cap c (login_caps (c_cap c))))) by reflexivity.
    erewrite (ibind_ok (ilift (new_auth_plugin _))) by (unfold ilift; rewrite Hnew; reflexivity).
    rewrite Hgen. erewrite (ibind_ok (ilift (Ok resp))) by reflexivity.
    set (c2 := set_cap c1 caps).
    assert (E4 : (match o_database opts with
          | [] => iret tt
          | _ => fun c => (Ok tt, set_cap c (insert (c_cap c) CONNECT_WITH_DB))
          end) (set_cap c1 (login_caps (c_cap c1))) = (Ok tt, c2)).
    { unfold c2, caps, client_caps. rewrite S3, Hc0. destruct (o_database opts); reflexivity. }
    rewrite (ibind_ok _ _ _ _ _ E4). cbv beta zeta.
    change (c_cap c2) with caps.
    set (r := mk_hr caps 0xffffff 33 (o_username opts) resp (o_database opts) plugin []).
    assert (Hlen : blen (write_handshake_response r) < 2 ^ 24 - 1).
    { pose proof (login_length r Hr (client_caps_attrs _)) as L. cbn [r hr_username hr_auth hr_database hr_plugin] in L.
      change (2 ^ 20) with 1048576 in *. change (2 ^ 24) with 16777216.
      clear - L Hr Hul Hdl Hpl. lia. }
    assert (Hpc : packet_count (blen (write_handshake_response r)) = 1).
    { unfold packet_count, full. rewrite N.div_small by exact Hlen. reflexivity. }
    assert (Hnr : c_pkt_nr c2 = 1) by (unfold c2; cbn; rewrite E3; reflexivity).
    destruct (send_msg_spec checks c2 (write_handshake_response r) false) as (seqs & w & c3 & F1 & F2 & F3 & _ & _ & _ & F6 & (R1 & R2 & R3)).
    { unfold c2. cbn. rewrite S1. exact Hacc. }
    { rewrite Hnr. lia. }
    { right. rewrite Hnr, Hpc. lia. }
    rewrite (ibind_ok _ _ _ _ _ F1). cbv beta.
    exists c3, (sched_len (c_rd c3)), (write_handshake_response r). splits.
    - reflexivity.
    - assert (I3 : awaits c3 ps d).
      { destruct E2 as (w1 & M1 & M2). exists w1. split; [exact M1|]. rewrite R1. exact M2. }
      apply incoming_fuel in I3. exact I3.
    - destruct E2 as (w1 & M1 & M2). exists w1. split; [exact M1|]. rewrite R1. exact M2.
    - exact F6.
    - exists w. split.
      + rewrite <- (app_nil_r w). econstructor; [exact F2|constructor].
      + rewrite F3. unfold c2. cbn. rewrite S2. reflexivity.
    - rewrite R2. reflexivity.
    - rewrite R3. unfold c2. cbn. exact S4.
    - eapply eq_trans; [apply login_decodes|].
      + unfold login_ok, str_ok. cbn [hr_cap hr_max_packet hr_charset hr_username hr_auth hr_database hr_plugin hr_attrs r].
        fold (blen resp). splits; auto; try reflexivity.
        * unfold caps, client_caps. destruct (o_database opts); reflexivity.
        * split; clear - Hr; lia.
        * discriminate.
      + left. unfold caps, client_caps. cbn [hr_cap r]. destruct (o_database opts); reflexivity.
      + cbn [hr_cap hr_max_packet hr_charset hr_username hr_auth hr_database hr_plugin hr_attrs r].
        unfold caps, client_caps. destruct (o_database opts); reflexivity.
  Qed.

  Lemma greeting_unknown checks opts c version conn_id seed_1 cap charset status auth_len seed_2 plugin ps d :
    greeting_ok version conn_id seed_1 cap charset status auth_len seed_2 plugin -> no_nul plugin -> utf8_valid plugin = true ->
    plugin <> str "mysql_native_password" -> plugin <> str "caching_sha2_password" ->
    awaits_numbered c x00 (greeting_wire version conn_id seed_1 cap charset status auth_len seed_2 plugin) ps d ->
    exists c', handshake sha1 sha256 checks opts c = (Err ECustom, c') /\ c_out c' = c_out c.
  Proof.
    intros (Hv & Hid & Hs1 & Hcap & Hcs & Hst & (H8 & Hal) & Hs2 & Hsec & Hpa) Hp Hu N1 N2 Hin.
    destruct (incoming_first _ _ _ _ _ Hin) as (c1 & E1 & E2 & (S1 & S2 & S3 & S4) & E3).
    unfold handshake. rewrite (ibind_ok _ _ _ _ _ E1).
    rewrite greeting_decodes by auto. cbn [fst]. rewrite Hsec, Hpa.
    erewrite (ibind_ok (ilift _)) by reflexivity. cbn [hs_auth_data_1 hs_auth_data_2 hs_plugin].
    erewrite (ibind_ok (fun c => (Ok tt, set_cap c (login_caps (c_cap c))))) by reflexivity.
    assert (Hnew : new_auth_plugin plugin = Err ECustom).
    { unfold new_auth_plugin. destruct (beqb_spec plugin (str "mysql_native_password")); [contradiction|].
      destruct (beqb_spec plugin (str "caching_sha2_password")); [contradiction|reflexivity]. }
    rewrite Hnew. eexists. split; [reflexivity|]. exact S2.
  Qed.

  Lemma login_ok_final checks opts c version conn_id seed_1 cap charset status auth_len seed_2 plugin p0 resp p1
      more affected insert_id ok_status_ warnings info state d :
    greeting_ok version conn_id seed_1 cap charset status auth_len seed_2 plugin ->
    no_nul plugin -> utf8_valid plugin = true -> blen plugin < 2 ^ 20 ->
    new_auth_plugin plugin = Ok p0 ->
    gen_init_auth_resp sha1 sha256 p0 (o_password opts) (seed_1 ++ seed_2) = (Ok resp, p1) ->
    blen resp < 251 -> no_nul (o_username opts) -> no_nul (o_database opts) ->
    blen (o_username opts) < 2 ^ 20 -> blen (o_database opts) < 2 ^ 20 ->
    c_cap c = 0 -> accepting (c_ws c) ->
    (forall b, more = Some b -> exists p2, auth_next sha1 sha256 p1 b = (Ok [], p2)) ->
    affected < 2 ^ 64 -> insert_id < 2 ^ 64 -> ok_status_ < 2 ^ 15 -> warnings < 2 ^ 16 ->
    blen info < 2 ^ 64 -> blen state < 2 ^ 64 ->
    let caps := client_caps (o_database opts) in
    awaits_numbered c x00 (greeting_wire version conn_id seed_1 cap charset status auth_len seed_2 plugin)
      (match more with Some b => [more_wire b] | None => [] end ++
       [ok_wire caps 0 affected insert_id ok_status_ warnings info state]) d ->
    exists c' login, handshake sha1 sha256 checks opts c = (Ok tt, c') /\ sent c c' [login] /\
      server_login login = Some (mk_login caps 0xffffff 33 (o_username opts) resp
        (match o_database opts with [] => None | db => Some db end) (Some plugin) None, []) /\
      c_cap c' = caps /\ c_status c' = ok_status_ /\ c_pkt_nr c' = 0 /\ delivered (c_rd c') = d /\ accepting (c_ws c').
  Proof.
    intros (Hv & Hid & Hs1 & Hcap & Hcs & Hst & [H8 Hal] & Hs2 & Hsec & Hpa) Hn Hu Hpl Hnew Hgen Hr Hun Hdn Hul Hdl Hc0 Hacc
      Hmore A1 A2 A3 A4 A5 A6 caps Hin.
    destruct (handshake_login checks opts c version conn_id seed_1 cap charset status auth_len seed_2 plugin p0 resp p1 _ _
      Hv Hid Hs1 Hcap Hcs Hst Hal H8 Hs2 Hsec Hpa Hn Hu Hpl Hnew Hgen Hr Hun Hdn Hul Hdl Hc0 Hacc Hin)
      as (c1 & fuel & login & E & Hf & I & Wc & S & C & _ & L).
    assert (Hst' : sent_status caps ok_status_ = ok_status_).
    { unfold sent_status, caps, client_caps. destruct (o_database opts); reflexivity. }
    fold caps in E. rewrite E. destruct more as [b|].
    - destruct (Hmore b eq_refl) as (p2 & Hp2). cbn [app] in I, Hf.
      destruct (handshake_loop_more checks caps fuel p1 p2 c1 b _ _ I Hp2) as (c2 & E2 & I2 & (S1 & S2 & S3 & S4)).
      rewrite E2. destruct fuel as [|fuel]; [cbn in Hf; lia|].
      destruct (handshake_loop_ok checks caps fuel p2 c2 _ _ _ _ _ _ _ _ _ I2 eq_refl A1 A2 A3 A4 A5 A6)
        as (c3 & E3 & (w3 & W3 & D3) & T1 & T2 & T3 & T4 & T5).
      exists c3, login. splits; auto.
      + unfold sent in *. rewrite T3, S2. exact S.
      + rewrite T4, S3. exact C.
      + congruence.
      + inversion W3; subst. exact D3.
      + congruence.
    - cbn [app] in I. destruct (handshake_loop_ok checks caps fuel p1 c1 _ _ _ _ _ _ _ _ _ I eq_refl A1 A2 A3 A4 A5 A6)
        as (c3 & E3 & (w3 & W3 & D3) & T1 & T2 & T3 & T4 & T5).
      exists c3, login. splits; auto.
      + unfold sent in *. rewrite T3. exact S.
      + rewrite T4. exact C.
      + congruence.
      + inversion W3; subst. exact D3.
      + congruence.
  Qed.

  Lemma native_login checks opts c version conn_id seed_1 cap charset status auth_len seed_2 nonce
      affected insert_id ok_status_ warnings info state d :
    (forall x, length (sha1 x) = 20%nat) ->
    let plugin := str "mysql_native_password" in
    greeting_ok version conn_id seed_1 cap charset status auth_len seed_2 plugin ->
    seed_1 ++ seed_2 = nonce ++ [x00] ->
    no_nul (o_username opts) -> no_nul (o_database opts) ->
    N.of_nat (length (o_username opts)) < 2 ^ 20 -> N.of_nat (length (o_database opts)) < 2 ^ 20 ->
    c_cap c = 0 -> accepting (c_ws c) ->
    affected < 2 ^ 64 -> insert_id < 2 ^ 64 -> ok_status_ < 2 ^ 15 -> warnings < 2 ^ 16 ->
    N.of_nat (length info) < 2 ^ 64 -> N.of_nat (length state) < 2 ^ 64 ->
    let caps := client_caps (o_database opts) in
    awaits_numbered c x00 (greeting_wire version conn_id seed_1 cap charset status auth_len seed_2 plugin)
       [ok_wire caps 0 affected insert_id ok_status_ warnings info state] d ->
    exists c' login resp, handshake sha1 sha256 checks opts c = (Ok tt, c') /\ sent c c' [login] /\
      server_login login = Some (mk_login caps 0xffffff 33 (o_username opts) resp
        (match o_database opts with [] => None | db => Some db end) (Some plugin) None, []) /\
      (o_password opts = [] -> resp = []) /\
      (o_password opts <> [] -> native_accepts sha1 (sha1 (sha1 (o_password opts))) nonce resp) /\
      c_cap c' = caps /\ c_status c' = ok_status_ /\ c_pkt_nr c' = 0 /\ delivered (c_rd c') = d /\ accepting (c_ws c').
  Proof.
    intros H20 plugin Hg Hseed Hun Hdn Hul Hdl Hc0 Hacc A1 A2 A3 A4 A5 A6 caps Hin.
    assert (exists resp p1, gen_init_auth_resp sha1 sha256 (Native []) (o_password opts) (seed_1 ++ seed_2) = (Ok resp, p1) /\
      (o_password opts = [] -> resp = []) /\
      (o_password opts <> [] -> native_accepts sha1 (sha1 (sha1 (o_password opts))) nonce resp) /\ blen resp < 251)
      as (resp & p1 & G & R1 & R2 & R3).
    { rewrite Hseed. destruct (o_password opts) as [|b pw] eqn:Ep.
      - destruct (empty_password (Native []) (nonce ++ [x00])) as (p' & G). exists [], p'. splits; auto; try congruence; reflexivity.
      - destruct (native_accepted (b :: pw) nonce H20 ltac:(discriminate)) as (resp & p & G & A & L).
        exists resp, p. splits; auto; try congruence. unfold blen. rewrite L. reflexivity. }
    destruct (login_ok_final checks opts c version conn_id seed_1 cap charset status auth_len seed_2 plugin (Native []) resp p1
      None affected insert_id ok_status_ warnings info state d Hg) as (c' & login & E1 & E2 & E3 & E4 & E5 & E6 & E7 & E8); auto.
    - unfold plugin, no_nul. cbn. intuition discriminate.
    - reflexivity.
    - discriminate.
    - exists c', login, resp. splits; auto.
  Qed.

  Lemma sha2_login checks opts c version conn_id seed_1 cap charset status auth_len seed_2
      affected insert_id ok_status_ warnings info state d :
    (forall x, length (sha256 x) = 32%nat) ->
    let plugin := str "caching_sha2_password" in
    greeting_ok version conn_id seed_1 cap charset status auth_len seed_2 plugin ->
    o_password opts <> [] ->
    no_nul (o_username opts) -> no_nul (o_database opts) ->
    N.of_nat (length (o_username opts)) < 2 ^ 20 -> N.of_nat (length (o_database opts)) < 2 ^ 20 ->
    c_cap c = 0 -> accepting (c_ws c) ->
    affected < 2 ^ 64 -> insert_id < 2 ^ 64 -> ok_status_ < 2 ^ 15 -> warnings < 2 ^ 16 ->
    N.of_nat (length info) < 2 ^ 64 -> N.of_nat (length state) < 2 ^ 64 ->
    let caps := client_caps (o_database opts) in
    awaits_numbered c x00 (greeting_wire version conn_id seed_1 cap charset status auth_len seed_2 plugin)
       [more_wire [x03]; ok_wire caps 0 affected insert_id ok_status_ warnings info state] d ->
    exists c' login, handshake sha1 sha256 checks opts c = (Ok tt, c') /\ sent c c' [login] /\
      server_login login = Some (mk_login caps 0xffffff 33 (o_username opts)
        (scramble_caching_sha2 sha256 (o_password opts) [])
        (match o_database opts with [] => None | db => Some db end) (Some plugin) None, []) /\
      c_cap c' = caps /\ c_status c' = ok_status_ /\ c_pkt_nr c' = 0 /\ delivered (c_rd c') = d /\ accepting (c_ws c').
  Proof.
    intros H32 plugin Hg Hpw Hun Hdn Hul Hdl Hc0 Hacc A1 A2 A3 A4 A5 A6 caps Hin.
    set (p0 := Sha2 [] [] FastAuthSendScramble false).
    pose proof (sha2_ignores_nonce p0 (o_password opts) (seed_1 ++ seed_2) eq_refl Hpw) as Hresp.
    destruct (sha2_flow p0 (o_password opts) (seed_1 ++ seed_2) eq_refl Hpw) as (resp & p1 & G & F & _).
    rewrite G in Hresp. injection Hresp as ->.
    destruct (login_ok_final checks opts c version conn_id seed_1 cap charset status auth_len seed_2 plugin p0
      (scramble_caching_sha2 sha256 (o_password opts) []) p1
      (Some [x03]) affected insert_id ok_status_ warnings info state d Hg)
       as (c' & login & E1 & E2 & E3 & E4 & E5 & E6 & E7 & E8); auto.
    - unfold plugin, no_nul. cbn. intuition discriminate.
    - reflexivity.
    - unfold scramble_caching_sha2, blen. rewrite xor_zip_length; rewrite ?H32; reflexivity.
    - intros b H. injection H as <-. apply F.
    - exists c', login. splits; auto.
  Qed.

  Lemma greeting_switch checks opts c version conn_id seed_1 cap charset status auth_len seed_2 p0 resp p1 plugin plugin' data d :
    greeting_ok version conn_id seed_1 cap charset status auth_len seed_2 plugin ->
    no_nul plugin -> utf8_valid plugin = true -> blen plugin < 2 ^ 20 ->
    new_auth_plugin plugin = Ok p0 ->
    gen_init_auth_resp sha1 sha256 p0 (o_password opts) (seed_1 ++ seed_2) = (Ok resp, p1) ->
    blen resp < 251 -> no_nul (o_username opts) -> no_nul (o_database opts) ->
    blen (o_username opts) < 2 ^ 20 -> blen (o_database opts) < 2 ^ 20 ->
    c_cap c = 0 -> accepting (c_ws c) -> no_nul plugin' -> utf8_valid plugin' = true ->
    awaits_numbered c x00 (greeting_wire version conn_id seed_1 cap charset status auth_len seed_2 plugin)
      [switch_wire plugin' data] d ->
    exists c', handshake sha1 sha256 checks opts c = (Panic PUnimplemented, c').
  Proof.
    intros (Hv & Hid & Hs1 & Hcap & Hcs & Hst & [H8 Hal] & Hs2 & Hsec & Hpa) Hn Hu Hpl Hnew Hgen Hr Hun Hdn Hul Hdl Hc0 Hacc
      Hn' Hu' Hin.
    destruct (handshake_login checks opts c version conn_id seed_1 cap charset status auth_len seed_2 plugin p0 resp p1 _ _
      Hv Hid Hs1 Hcap Hcs Hst Hal H8 Hs2 Hsec Hpa Hn Hu Hpl Hnew Hgen Hr Hun Hdn Hul Hdl Hc0 Hacc Hin)
      as (c1 & fuel & login & E & Hf & I & Wc & S & C & _ & L).
    rewrite E. eapply handshake_loop_switch; eassumption.
  Qed.
End A.

Lemma sha1_length m : length (sha1 m) = 20%nat.
Proof. unfold sha1. destruct (fold_left _ _ _) as [[[[a b] c] d] e]. reflexivity. Qed.
Lemma sha256_length m : length (sha256 m) = 32%nat.
Proof. unfold sha256. destruct (fold_left _ _ _) as [[[[[[[a b] c] d] e] f] g] h]. reflexivity. Qed.

(** the response the client really sends, with the real SHA-256: password "secret" *)
Lemma Ok_inj {A} (a b : A) : Ok a = Ok b -> a = b.
Proof. intros H; injection H as ->; reflexivity. Qed.

Lemma sha2_check_false (sha : bytes -> bytes) pw nonce resp :
  (match bxor (scramble_caching_sha2 sha pw []) (sha (sha (sha pw) ++ nonce)) with
   | Some d => beqb (sha d) (sha (sha pw)) | None => false end) = false ->
  resp = scramble_caching_sha2 sha pw [] -> ~ sha2_accepts sha (sha (sha pw)) nonce resp.
Proof.
  intros W -> (d & H1 & H2). rewrite H1, H2 in W.
  destruct (beqb_spec (sha (sha pw)) (sha (sha pw))); congruence.
Qed.

Lemma sha2_rejected_witness :
  let pw := str "secret" in let nonce := str "abcdefghijklmnopqrst" in
  exists p, new_auth_plugin (str "caching_sha2_password") = Ok p /\
    forall resp, fst (gen_init_auth_resp sha1 sha256 p pw (nonce ++ [x00])) = Ok resp ->
      ~ sha2_accepts sha256 (sha256 (sha256 pw)) nonce resp.
Proof.
  intros pw nonce. exists (Sha2 [] [] FastAuthSendScramble false). split; [reflexivity|]. intros resp H.
  apply sha2_check_false; [vm_compute; reflexivity|].
  rewrite sha2_ignores_nonce in H; [|reflexivity|discriminate]. symmetry. exact (Ok_inj _ _ H).
Qed.
