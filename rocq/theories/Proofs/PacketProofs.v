(** * Proofs about packets and the handshake (C09-C13) *)
From Verif Require Import Model.Base Model.BytesParser Model.LenEnc Model.Utf8 Model.Flags Model.Packet
  Spec.Nums Spec.Codec Spec.LenEncSpec Spec.Wire Spec.Packets
  Proofs.BaseLemmas Proofs.BytesParserProofs Proofs.CodecProofs Proofs.LenEncProofs Proofs.WireLemmas.
Open Scope N_scope.

(** ** flags *)
Lemma contains_testbit f k : contains f (2 ^ k) = N.testbit f k.
Proof.
  unfold contains. destruct (N.testbit f k) eqn:E.
  - apply N.eqb_eq, N.bits_inj. intros i. rewrite N.land_spec.
    destruct (N.eq_dec i k) as [->|Hi]; [rewrite E, N.pow2_bits_true; reflexivity|].
    rewrite N.pow2_bits_false by congruence. apply andb_false_r.
  - apply N.eqb_neq. intros H. assert (N.testbit (N.land f (2 ^ k)) k = true) by (rewrite H; apply N.pow2_bits_true).
    rewrite N.land_spec, E in H0. discriminate.
Qed.
Lemma contains_41 c : contains c PROTOCOL_41 = cap_protocol_41 c. Proof. apply (contains_testbit c 9). Qed.
Lemma contains_trans c : contains c TRANSACTIONS = cap_transactions c. Proof. apply (contains_testbit c 13). Qed.
Lemma contains_track c : contains c SESSION_TRACK = cap_session_track c. Proof. apply (contains_testbit c 23). Qed.
Lemma contains_db c : contains c CONNECT_WITH_DB = cap_connect_with_db c. Proof. apply (contains_testbit c 3). Qed.
Lemma contains_plugin c : contains c PLUGIN_AUTH = cap_plugin_auth c. Proof. apply (contains_testbit c 19). Qed.
Lemma contains_attrs c : contains c CONNECT_ATTRS = cap_connect_attrs c. Proof. apply (contains_testbit c 20). Qed.
Lemma contains_secure c : contains c SECURE_CONNECTION = cap_secure_connection c. Proof. apply (contains_testbit c 15). Qed.
Lemma contains_changed s : contains s SESSION_STATE_CHANGED = status_session_changed s. Proof. apply (contains_testbit s 14). Qed.
Lemma truncate_secure c : contains (from_bits_truncate all_capabilities c) SECURE_CONNECTION = cap_secure_connection c.
Proof. rewrite contains_secure. unfold cap_secure_connection, from_bits_truncate. rewrite N.land_spec. apply andb_true_r. Qed.
Lemma truncate_plugin c : contains (from_bits_truncate all_capabilities c) PLUGIN_AUTH = cap_plugin_auth c.
Proof. rewrite contains_plugin. unfold cap_plugin_auth, from_bits_truncate. rewrite N.land_spec. apply andb_true_r. Qed.

Lemma status_known s bs : s < 2 ^ 15 -> status_from_bits s bs = (Ok s, bs).
Proof.
  intros H. unfold status_from_bits, from_bits. change all_status with (N.ones 15).
  replace (N.ldiff s (N.ones 15)) with 0; [reflexivity|].
  symmetry. apply N.ldiff_ones_r_low. destruct (N.eq_dec s 0) as [->|]; [reflexivity|].
  apply N.log2_lt_pow2; lia.
Qed.
Lemma status_unknown s bs : 2 ^ 15 <= s < 2 ^ 16 -> status_from_bits s bs = (Err EConstraint, bs).
Proof.
  intros H. unfold status_from_bits, from_bits. change all_status with (N.ones 15).
  rewrite N.ldiff_ones_r. replace (N.shiftr s 15) with 1; [reflexivity|].
  rewrite N.shiftr_div_pow2. change (2 ^ 15) with 32768 in *. change (2 ^ 16) with 65536 in *. lia.
Qed.

(** ** length encoded fields *)
Lemma rd_lei_u64 n rest : n < 2 ^ 64 -> read_lei_u64 (wlenenc n ++ rest) = (Ok n, rest).
Proof.
  intros H. destruct (read_lei_lenenc n (wlenenc n) rest (wlenenc_spec n H)) as (l & Hl & Hv).
  unfold read_lei_u64. erewrite pbind_ok by exact Hl. rewrite Hv. reflexivity.
Qed.
Lemma rd_les s rest : blen s < 2 ^ 64 -> read_les_bytes (wlstr s ++ rest) = (Ok s, rest).
Proof. intros H. unfold read_les_bytes. erewrite pbind_ok by (apply rd_lenstr; exact H). reflexivity. Qed.
#[export] Hint Resolve rd_lei_u64 rd_les : rd.

Lemma read_rest_all s : read_rest s = (Ok s, []).
Proof. reflexivity. Qed.
#[export] Hint Resolve read_rest_all : rd.

(** ** OK packets *)
Lemma ok_decodes cap header affected insert_id status warnings info state :
  header < 256 -> affected < 2 ^ 64 -> insert_id < 2 ^ 64 -> status < 2 ^ 15 -> warnings < 2 ^ 16 ->
  blen info < 2 ^ 64 -> blen state < 2 ^ 64 ->
  read_ok_packet cap (ok_wire cap header affected insert_id status warnings info state)
  = (Ok (mk_ok header affected insert_id (sent_status cap status) (sent_warnings cap warnings) info
               (if sends_state cap status then state else [])), []).
Proof.
  intros. unfold read_ok_packet, ok_wire, sent_status, sent_warnings, sends_state.
  rewrite contains_41, contains_trans, contains_track. unfold sent_status.
  do 3 rstep.
  assert (Hs : forall s f rest', s < 2 ^ 15 ->
    pbind (pbind read_le_u16 status_from_bits) f (wle 2 s ++ rest') = f s rest' :> res ok_packet * bytes).
  { intros s f rest' Hs. eapply eq_trans; [eapply pbind_ok|reflexivity].
    eapply eq_trans; [eapply pbind_ok; apply rd_u16; lia|]. apply status_known. exact Hs. }
  destruct (cap_protocol_41 cap); [|destruct (cap_transactions cap)]; cbn [orb];
    [rewrite <- !app_assoc; rewrite Hs by assumption|rewrite Hs by assumption|rstep]; rstep;
    rewrite contains_changed; destruct (cap_session_track cap); cbn [andb app].
  all: try (destruct (status_session_changed _)). all: rewrite ?app_nil_r; repeat rstep; reflexivity.
Qed.

Lemma ok_status_rejected cap header affected insert_id status rest :
  header < 256 -> affected < 2 ^ 64 -> insert_id < 2 ^ 64 -> 2 ^ 15 <= status < 2 ^ 16 -> cap_protocol_41 cap = true ->
  read_ok_packet cap (n2b header :: wlenenc affected ++ wlenenc insert_id ++ wle 2 status ++ rest)
  = (Err EConstraint, rest).
Proof.
  intros. unfold read_ok_packet. rewrite contains_41, H3. cbn [orb]. do 3 rstep.
  apply pbind_err. eapply eq_trans; [eapply pbind_ok; apply rd_u16; lia|]. apply status_unknown. assumption.
Qed.

Lemma ok_omitted_info cap header affected insert_id status warnings :
  header < 256 -> affected < 2 ^ 64 -> insert_id < 2 ^ 64 -> status < 2 ^ 15 -> warnings < 2 ^ 16 ->
  cap_protocol_41 cap = true -> cap_session_track cap = true ->
  exists e, read_ok_packet cap (n2b header :: wlenenc affected ++ wlenenc insert_id ++ wle 2 status ++ wle 2 warnings)
  = (Err e, []).
Proof.
  intros. eexists. unfold read_ok_packet. rewrite contains_41, contains_track, H4, H5. cbn [orb].
  do 3 rstep. eapply eq_trans.
  { eapply pbind_ok. eapply eq_trans; [eapply pbind_ok; apply rd_u16; lia|]. apply status_known. assumption. }
  rstep. apply pbind_err. reflexivity.
Qed.

(** ** ERR packets *)
Lemma err_decodes cap code state msg : code < 2 ^ 16 -> length state = 5%nat ->
  read_err_packet cap true (err_wire cap code state msg)
  = (Ok (mk_err 255 code (if cap_protocol_41 cap then 0x23 else 0) (if cap_protocol_41 cap then state else []) msg), []).
Proof.
  intros Hc Hs. unfold read_err_packet, err_wire. rewrite contains_41. cbn [andb].
  rstep. rstep. destruct (cap_protocol_41 cap).
  - cbn [app]. eapply eq_trans; [eapply pbind_ok|].
    { eapply eq_trans; [eapply pbind_ok; apply rd_u8b|]. cbv beta.
      eapply eq_trans; [eapply pbind_ok; apply (rd_len _ state); unfold blen; rewrite Hs; reflexivity|]. reflexivity. }
    reflexivity.
  - reflexivity.
Qed.

Lemma err_surfaces cap code state msg : code < 2 ^ 16 -> length state = 5%nat ->
  utf8_valid state = true -> utf8_valid msg = true -> cap_protocol_41 cap = true ->
  exists p, read_com_response cap (err_wire cap code state msg) = (Ok (CrErr p), [])
    /\ error_of_err_packet p = ESql code x23 state msg.
Proof.
  intros Hc Hs Hu Hm Hp. exists (mk_err 255 code 0x23 state msg). split.
  - change (pmap CrErr (read_err_packet cap true) (err_wire cap code state msg) = (Ok (CrErr (mk_err 255 code 0x23 state msg)), [])).
    apply pmap_ok. rewrite err_decodes by assumption. rewrite Hp. reflexivity.
  - unfold error_of_err_packet, from_utf8. cbn [er_state er_message er_code er_marker]. rewrite Hu, Hm. reflexivity.
Qed.

Lemma err_not_utf8 p : utf8_valid (er_state p) && utf8_valid (er_message p) = false -> error_of_err_packet p = EUtf8.
Proof. unfold error_of_err_packet, from_utf8. destruct (utf8_valid (er_state p)), (utf8_valid (er_message p)); cbn; congruence. Qed.

Lemma handshake_err cap code state msg : code < 2 ^ 16 -> cap_protocol_41 cap = true ->
  read_handshake_message cap (err_wire cap code state msg)
  = (Ok (HmErr (mk_err 255 code 0 [] (x23 :: state ++ msg))), []).
Proof.
  intros Hc Hp. unfold err_wire. rewrite Hp. cbn [read_handshake_message].
  change (pmap HmErr (read_err_packet cap false) (xff :: wle 2 code ++ (x23 :: state) ++ msg)
          = (Ok (HmErr (mk_err 255 code 0 [] (x23 :: state ++ msg))), [])).
  apply pmap_ok. unfold read_err_packet. cbn [andb]. rstep. rstep. reflexivity.
Qed.

Lemma handshake_err_plain cap code msg : code < 2 ^ 16 ->
  read_handshake_message cap (err_wire 0 code [] msg)
  = (Ok (HmErr (mk_err 255 code 0 [] msg)), []).
Proof.
  intros Hc. 
  change (pmap HmErr (read_err_packet cap false) (xff :: wle 2 code ++ msg)
          = (Ok (HmErr (mk_err 255 code 0 [] msg)), [])).
  apply pmap_ok. unfold read_err_packet. cbn [andb]. rstep. rstep. reflexivity.
Qed.

(** ** EOF packets, classification *)
Lemma eof_decodes cap warnings status : warnings < 2 ^ 16 -> status < 2 ^ 15 ->
  read_eof_packet cap (eof_wire cap warnings status)
  = (Ok (mk_eof 254 (sent_warnings cap warnings) (if cap_protocol_41 cap then status else 0)), []).
Proof.
  intros Hw Hs. unfold read_eof_packet, eof_wire, sent_warnings. rewrite contains_41. rstep.
  destruct (cap_protocol_41 cap); [|reflexivity].
  eapply eq_trans; [eapply pbind_ok|].
  { rstep. eapply eq_trans; [eapply pbind_ok; apply no_app; apply rd_u16; lia|]. cbv beta.
    eapply eq_trans; [eapply pbind_ok; apply status_known; assumption|]. reflexivity. }
  reflexivity.
Qed.

(** an OK packet without affected rows read as an EOF packet: the two counters are taken for the warnings *)
Lemma eof_in_ok cap status warnings info state : cap_protocol_41 cap = true -> status < 2 ^ 15 ->
  exists rest, read_eof_packet cap (ok_wire cap 0xfe 0 0 status warnings info state) = (Ok (mk_eof 254 0 status), rest).
Proof.
  intros P Hs. unfold read_eof_packet, ok_wire. rewrite contains_41, P. cbn [app].
  change (wlenenc 0) with [x00]. cbn [app]. eexists. rstep.
  eapply eq_trans; [eapply pbind_ok|].
  { change (x00 :: x00 :: ?l) with (wle 2 0 ++ l). rewrite <- app_assoc. rstep.
    eapply eq_trans; [eapply pbind_ok; apply rd_u16; lia|]. cbv beta.
    eapply eq_trans; [eapply pbind_ok; apply status_known; assumption|]. reflexivity. }
  reflexivity.
Qed.

Lemma pmap_Ok_inv {A B} (f : A -> B) p bs b rest : pmap f p bs = (Ok b, rest) -> exists a, p bs = (Ok a, rest) /\ b = f a.
Proof. intros H. apply pmap_inv in H. destruct H as (a & H & <-). eauto. Qed.

Lemma com_classified cap b rest :
  (b <> x00 -> b <> xff -> read_com_response cap (b :: rest) = (Err EConstraint, b :: rest)) /\
  (forall p r, read_com_response cap (b :: rest) = (Ok (CrOk p), r) -> b = x00) /\
  (forall p r, read_com_response cap (b :: rest) = (Ok (CrErr p), r) -> b = xff) /\
  (b = x00 -> forall p r, read_ok_packet cap (b :: rest) = (Ok p, r) -> read_com_response cap (b :: rest) = (Ok (CrOk p), r)) /\
  (b = xff -> forall p r, read_err_packet cap true (b :: rest) = (Ok p, r) -> read_com_response cap (b :: rest) = (Ok (CrErr p), r)).
Proof.
  assert (E : forall n, n < 256 -> (b2n b =? n) = true -> b = n2b n).
  { intros n Hn Hb. apply b2n_inj. rewrite b2n_n2b_small by assumption. apply N.eqb_eq. exact Hb. }
  pose proof (E 0 ltac:(lia)) as E0. pose proof (E 255 ltac:(lia)) as E1.
  cbn [read_com_response]. splits.
  - intros H1 H2. destruct (b2n b =? 0) eqn:E3; [destruct H1; apply E0; reflexivity|].
    destruct (b2n b =? 255) eqn:E4; [destruct H2; apply E1; reflexivity|]. reflexivity.
  - intros p r. destruct (b2n b =? 0); [intros; apply E0; reflexivity|].
    destruct (b2n b =? 255); [|discriminate]. intros H. apply pmap_Ok_inv in H. destruct H as (a & _ & H). discriminate.
  - intros p r. destruct (b2n b =? 0); [intros H; apply pmap_Ok_inv in H; destruct H as (a & _ & H); discriminate|].
    destruct (b2n b =? 255); [intros; apply E1; reflexivity|discriminate].
  - intros -> p r H. change (b2n x00 =? 0) with true. apply pmap_ok. exact H.
  - intros -> p r H. change (b2n xff =? 0) with false. change (b2n xff =? 255) with true. apply pmap_ok. exact H.
Qed.

Lemma handshake_classified cap b rest :
  (b <> x00 -> b <> x01 -> b <> xff -> b <> xfe -> read_handshake_message cap (b :: rest) = (Err EConstraint, b :: rest)) /\
  (forall m r, read_handshake_message cap (b :: rest) = (Ok m, r) -> b = hm_header m).
Proof.
  assert (E : forall n, n < 256 -> (b2n b =? n) = true -> b = n2b n).
  { intros n Hn Hb. apply b2n_inj. rewrite b2n_n2b_small by assumption. apply N.eqb_eq. exact Hb. }
  pose proof (E 0 ltac:(lia)) as E0. pose proof (E 255 ltac:(lia)) as E1.
  pose proof (E 1 ltac:(lia)) as E2. pose proof (E 254 ltac:(lia)) as E3.
  cbn [read_handshake_message]. splits.
  - intros H1 H2 H3 H4.
    destruct (b2n b =? 0); [destruct H1; apply E0; reflexivity|].
    destruct (b2n b =? 1); [destruct H2; apply E2; reflexivity|].
    destruct (b2n b =? 255); [destruct H3; apply E1; reflexivity|].
    destruct (b2n b =? 254); [destruct H4; apply E3; reflexivity|]. reflexivity.
  - intros m r.
    destruct (b2n b =? 0); [intros H; apply pmap_Ok_inv in H; destruct H as (a & _ & ->); apply E0; reflexivity|].
    destruct (b2n b =? 1); [intros H; apply pmap_Ok_inv in H; destruct H as (a & _ & ->); apply E2; reflexivity|].
    destruct (b2n b =? 255); [intros H; apply pmap_Ok_inv in H; destruct H as (a & _ & ->); apply E1; reflexivity|].
    destruct (b2n b =? 254); [intros H; apply pmap_Ok_inv in H; destruct H as (a & _ & ->); apply E3; reflexivity|].
    discriminate.
Qed.

Lemma switch_reads plugin data : no_nul plugin -> utf8_valid plugin = true ->
  read_auth_switch (switch_wire plugin data) = (Ok (mk_switch 254 plugin data), []).
Proof.
  intros Hn Hu. unfold read_auth_switch, switch_wire. rstep.
  change (negb (b2n xfe =? 254)) with false. cbv iota. rstep. rstep.
  unfold from_utf8. rewrite Hu. reflexivity.
Qed.
Lemma switch_decodes cap plugin data : no_nul plugin -> utf8_valid plugin = true ->
  read_handshake_message cap (switch_wire plugin data) = (Ok (HmSwitch (mk_switch 254 plugin data)), []).
Proof.
  intros Hn Hu. change (pmap HmSwitch read_auth_switch (switch_wire plugin data) = (Ok (HmSwitch (mk_switch 254 plugin data)), [])).
  apply pmap_ok. apply switch_reads; assumption.
Qed.
Lemma more_decodes cap data : read_handshake_message cap (more_wire data) = (Ok (HmMore (mk_more 1 data)), []).
Proof. reflexivity. Qed.

(** ** The greeting *)
Lemma lor_low_high cap : cap < 2 ^ 32 -> N.lor (cap mod 2 ^ 16) (N.shiftl (cap / 2 ^ 16) 16) = cap.
Proof.
  intros H. apply N.bits_inj. intros i. rewrite N.lor_spec.
  destruct (N.lt_ge_cases i 16).
  - rewrite N.mod_pow2_bits_low, N.shiftl_spec_low by assumption. apply orb_false_r.
  - rewrite N.mod_pow2_bits_high, N.shiftl_spec_high, N.div_pow2_bits by lia.
    cbn [orb]. f_equal. lia.
Qed.

Lemma greeting_decodes version conn_id seed_1 cap charset status auth_len seed_2 plugin :
  no_nul version -> conn_id < 2 ^ 32 -> length seed_1 = 8%nat -> cap < 2 ^ 32 -> charset < 2 ^ 8 -> status < 2 ^ 16 ->
  auth_len < 2 ^ 8 -> (cap_secure_connection cap = true -> 8 <= auth_len) ->
  blen seed_2 = N.max 13 (auth_len - 8) -> no_nul plugin -> utf8_valid plugin = true ->
  read_initial_handshake (greeting_wire version conn_id seed_1 cap charset status auth_len seed_2 plugin)
  = (Ok (mk_hs 10 version conn_id seed_1 charset status cap auth_len
           (if cap_secure_connection cap then seed_2 else [])
           (if cap_plugin_auth cap then plugin else [])), []).
Proof.
  intros Hv Hid Hs1 Hcap Hcs Hst Hal H8 Hs2 Hp Hu. unfold read_initial_handshake, greeting_wire.
  assert (Hlo : cap mod 2 ^ 16 < 2 ^ 16) by lia.
  assert (Hhi : cap / 2 ^ 16 < 2 ^ 16).
  { change (2 ^ 32) with 4294967296 in Hcap. change (2 ^ 16) with 65536. lia. }
  do 3 rstep.
  eapply eq_trans; [eapply pbind_ok; apply (rd_len _ seed_1); unfold blen; rewrite Hs1; reflexivity|]. cbv beta.
  eapply eq_trans; [eapply pbind_ok; apply (rd_len _ [x00]); reflexivity|]. cbv beta.
  do 5 rstep.
  eapply eq_trans; [eapply pbind_ok; apply (rd_len _ (repeat x00 10)); reflexivity|]. cbv beta zeta.
  rewrite truncate_secure, truncate_plugin, lor_low_high by assumption.
  assert (Hd2 : forall f rest,
    pbind (if cap_secure_connection cap then (d <- plift (csub auth_len 8) ;; read_len (N.max 13 d)) else pret []) f
      ((if cap_secure_connection cap then seed_2 else []) ++ rest)
    = f (if cap_secure_connection cap then seed_2 else []) rest :> res initial_handshake * bytes).
  { intros f rest. destruct (cap_secure_connection cap); [|reflexivity].
    eapply eq_trans; [eapply pbind_ok|reflexivity].
    unfold csub. destruct (N.ltb_spec auth_len 8); [specialize (H8 eq_refl); lia|].
    apply rd_len. symmetry. exact Hs2. }
  rewrite Hd2. destruct (cap_plugin_auth cap); [|reflexivity].
  eapply eq_trans; [eapply pbind_ok|].
  { eapply eq_trans; [eapply pbind_ok; apply no_app, rd_cstr; exact Hp|].
    unfold from_utf8. rewrite Hu. reflexivity. }
  reflexivity.
Qed.

Lemma greeting_panics version conn_id seed_1 cap charset status auth_len seed_2 plugin :
  no_nul version -> conn_id < 2 ^ 32 -> length seed_1 = 8%nat -> cap < 2 ^ 32 -> charset < 2 ^ 8 -> status < 2 ^ 16 ->
  cap_secure_connection cap = true -> auth_len < 8 ->
  exists r, read_initial_handshake (greeting_wire version conn_id seed_1 cap charset status auth_len seed_2 plugin)
  = (Panic PArith, r).
Proof.
  intros Hv Hid Hs1 Hcap Hcs Hst Hsec Hal. unfold read_initial_handshake, greeting_wire. eexists.
  assert (Hlo : cap mod 2 ^ 16 < 2 ^ 16) by lia.
  assert (Hhi : cap / 2 ^ 16 < 2 ^ 16).
  { change (2 ^ 32) with 4294967296 in Hcap. change (2 ^ 16) with 65536. lia. }
  do 3 rstep.
  eapply eq_trans; [eapply pbind_ok; apply (rd_len _ seed_1); unfold blen; rewrite Hs1; reflexivity|]. cbv beta.
  eapply eq_trans; [eapply pbind_ok; apply (rd_len _ [x00]); reflexivity|]. cbv beta.
  do 5 rstep.
  eapply eq_trans; [eapply pbind_ok; apply (rd_len _ (repeat x00 10)); reflexivity|]. cbv beta zeta.
  rewrite truncate_secure, lor_low_high by assumption. rewrite Hsec.
  apply pbind_panic. unfold csub. destruct (N.ltb_spec auth_len 8); [|lia]. reflexivity.
Qed.

(** ** The login packet *)
Lemma dopt_step {A B} (c : bool) (d : dec A) (k : option A -> dec B) (a : A) w rest :
  (c = true -> d (w ++ rest) = Some (a, rest)) ->
  dbind (dopt c d) k ((if c then w else []) ++ rest) = k (if c then Some a else None) rest.
Proof.
  intros H. destruct c; [|reflexivity]. unfold dopt, dbind, dret. rewrite (H eq_refl). reflexivity.
Qed.

Lemma wlenenc_nonempty n : exists b l, wlenenc n = b :: l.
Proof. unfold wlenenc. repeat (match goal with |- context [if ?c then _ else _] => destruct c end; eauto). Qed.

Lemma dpairs_attrs attrs : Forall attr_ok attrs -> forall fuel, (length (attrs_bytes attrs) <= fuel)%nat ->
  dpairs fuel (attrs_bytes attrs) = Some (map (fun a => (at_key a, at_value a)) attrs).
Proof.
  induction 1 as [|a attrs Ha _ IH]; intros fuel Hf; [destruct fuel; reflexivity|].
  destruct Ha as ((H1 & H2) & H3 & H4). fold (blen (at_key a)) in *. fold (blen (at_value a)) in *. cbn [attrs_bytes flat_map map] in *. fold (attrs_bytes attrs) in *.
  rewrite !lei_write_wlenenc in * by assumption.
  destruct fuel as [|fuel].
  { destruct (wlenenc_nonempty (blen (at_key a))) as (b & l & E). rewrite E in Hf. cbn in Hf. lia. }
  rewrite <- !app_assoc in *.
  assert (E : forall rest, (k <-- dlstr ;; v <-- dlstr ;; dret (k, v))
     (wlenenc (blen (at_key a)) ++ at_key a ++ wlenenc (blen (at_value a)) ++ at_value a ++ rest)
     = Some ((at_key a, at_value a), rest)).
  { intros rest. rewrite (dbind_some _ _ _ _ _ (d_lstr _ _ H1)), (dbind_some _ _ _ _ _ (d_lstr _ _ H3)). reflexivity. }
  destruct (wlenenc_nonempty (blen (at_key a))) as (b & l & El).
  specialize (E (attrs_bytes attrs)). rewrite El in *. cbn [app dpairs]. cbn [app] in E. rewrite E.
  rewrite IH; [reflexivity|]. cbn [app length] in Hf. rewrite !app_length in Hf. lia.
Qed.

Lemma attrs_bytes_wire attrs : Forall attr_ok attrs -> attrs_bytes attrs = attrs_wire attrs.
Proof.
  induction 1 as [|a attrs [[H1 H2] [H3 H4]] _ IH]; [reflexivity|].
  cbn [attrs_bytes attrs_wire flat_map]. fold (attrs_bytes attrs). fold (attrs_wire attrs). rewrite IH.
  fold (blen (at_key a)) in *. fold (blen (at_value a)) in *.
  rewrite !lei_write_wlenenc by assumption. unfold wlstr. rewrite <- !app_assoc. reflexivity.
Qed.

Lemma login_decodes r : login_ok r ->
  cap_lenenc_auth (hr_cap r) = true \/
    (cap_secure_connection (hr_cap r) = true /\ N.of_nat (length (hr_auth r)) < 251) ->
  server_login (write_handshake_response r) = Some (mk_login (hr_cap r) (hr_max_packet r) (hr_charset r)
    (hr_username r) (hr_auth r)
    (if cap_connect_with_db (hr_cap r) then Some (hr_database r) else None)
    (if cap_plugin_auth (hr_cap r) then Some (hr_plugin r) else None)
    (if cap_connect_attrs (hr_cap r) then Some (map (fun a => (at_key a, at_value a)) (hr_attrs r)) else None), []).
Proof.
  intros (Hcap & Hmp & Hcs & Hu & Hdb & Hpl & [Ha1 Ha2] & Hat & [Hb1 Hb2]) Hmode.
  rewrite <- attrs_bytes_wire in Hb1, Hb2 by assumption.
  fold (blen (hr_auth r)) in *. fold (blen (attrs_bytes (hr_attrs r))) in *.
  unfold write_handshake_response, server_login.
  rewrite contains_db, contains_plugin, contains_attrs.
  unfold write_le_u32, write_u8. rewrite <- !wle_to_le. cbn [app].
  rewrite !lei_write_wlenenc by assumption.
  do 3 dstep.
  eapply eq_trans; [eapply dbind_some; apply (d_bytes (repeat x00 23)); reflexivity|]. cbv beta.
  change (n2b 0) with x00. cbn [app].
  dstep.
  assert (Hauth : forall (k : bytes -> dec login) rest,
    dbind (if cap_lenenc_auth (hr_cap r) then dlstr
            else if cap_secure_connection (hr_cap r) then (n <-- dle 1 ;; dbytes (N.to_nat n))
            else dcstr) k (wlenenc (blen (hr_auth r)) ++ hr_auth r ++ rest) = k (hr_auth r) rest).
  { intros k rest. destruct (cap_lenenc_auth (hr_cap r)).
    - eapply eq_trans; [eapply dbind_some; apply d_lstr; assumption|]. reflexivity.
    - destruct Hmode as [|[Hm Hl]]; [discriminate|]. rewrite Hm. unfold wlenenc.
      destruct (N.ltb_spec (blen (hr_auth r)) 251); [|lia]. cbn [app].
      eapply eq_trans; [eapply dbind_some|reflexivity].
      rewrite (dbind_some _ _ _ _ _ (d_le1 _ _ (ltac:(lia) : blen (hr_auth r) < 256))).
      apply d_bytes. unfold blen. apply Nat2N.id. }
  rewrite Hauth.
  rewrite dopt_step with (a := hr_database r)
    by (intros _; rewrite <- app_assoc; apply d_cstr; assumption).
  rewrite dopt_step with (a := hr_plugin r)
    by (intros _; rewrite <- app_assoc; apply d_cstr; assumption).
  rewrite <- (app_nil_r (if cap_connect_attrs _ then _ else _)).
  rewrite dopt_step with (a := map (fun a => (at_key a, at_value a)) (hr_attrs r)).
  - reflexivity.
  - intros _. unfold dattrs. rewrite <- app_assoc.
    rewrite (dbind_some _ _ _ _ _ (d_lstr _ _ Hb1)). rewrite dpairs_attrs by auto. reflexivity.
Qed.

(** a 251 byte authentication response makes the packet unreadable *)
Lemma login_251 r : hr_cap r < 2 ^ 32 -> hr_max_packet r < 2 ^ 32 -> hr_charset r < 2 ^ 8 ->
  no_nul (hr_username r) -> blen (hr_auth r) = 251 -> cap_lenenc_auth (hr_cap r) = true ->
  server_login (write_handshake_response r) = None.
Proof.
  intros Hcap Hmp Hcs Hu Ha Hc.
  unfold write_handshake_response, server_login.
  unfold write_le_u32, write_u8. rewrite <- !wle_to_le. cbn [app]. rewrite Ha.
  do 3 dstep.
  eapply eq_trans; [eapply dbind_some; apply (d_bytes (repeat x00 23)); reflexivity|]. cbv beta.
  change (n2b 0) with x00. cbn [app]. dstep. rewrite Hc.
  generalize (hr_auth r). intros. reflexivity.
Qed.

(** ** hygiene *)
Lemma good_status n : good (status_from_bits n).
Proof. unfold status_from_bits. destruct (from_bits _ _); auto with parse. Qed.
Lemma good_lei64 : good read_lei_u64.
Proof. unfold read_lei_u64. apply good_bind; auto with parse. intros l. destruct (lei_to_u64 l); auto with parse. Qed.
Lemma good_les_bytes : good read_les_bytes.
Proof. unfold read_les_bytes. apply good_bind; auto with parse. intros l. destruct (les_bytes l); auto with parse. Qed.
#[export] Hint Resolve good_status good_lei64 good_les_bytes : parse.

Lemma no_panic_rest : no_panic read_rest.
Proof. intros bs. left. eexists. reflexivity. Qed.
Lemma suffix_rest : suffix_p read_rest.
Proof. intros bs. exists bs. cbn. rewrite app_nil_r. reflexivity. Qed.
Lemma from_utf8_ok s : (exists a, from_utf8 s = Ok a) \/ (exists e, from_utf8 s = Err e).
Proof. unfold from_utf8. destruct (utf8_valid s); eauto. Qed.
#[export] Hint Resolve no_panic_rest suffix_rest from_utf8_ok : parse.

Lemma good_packet : good read_packet. Proof. unfold read_packet. pt. Qed.
Lemma good_eof cap : good (read_eof_packet cap). Proof. unfold read_eof_packet. pt. Qed.
Lemma np_ok cap : no_panic (read_ok_packet cap). Proof. unfold read_ok_packet. pt. Qed.
Lemma sf_ok cap : suffix_p (read_ok_packet cap). Proof. unfold read_ok_packet. pt. Qed.
Lemma np_err cap sql : no_panic (read_err_packet cap sql). Proof. unfold read_err_packet. pt. Qed.
Lemma sf_err cap sql : suffix_p (read_err_packet cap sql). Proof. unfold read_err_packet. pt. Qed.
Lemma np_switch : no_panic read_auth_switch. Proof. unfold read_auth_switch. pt. Qed.
Lemma sf_switch : suffix_p read_auth_switch. Proof. unfold read_auth_switch. pt. Qed.
Lemma np_more : no_panic read_auth_more. Proof. unfold read_auth_more. pt. Qed.
Lemma sf_more : suffix_p read_auth_more. Proof. unfold read_auth_more. pt. Qed.
#[export] Hint Resolve good_packet good_eof np_ok sf_ok np_err sf_err np_switch sf_switch np_more sf_more : parse.

Lemma no_panic_at {A} (p : parser A) bs : no_panic p -> (exists a, fst (p bs) = Ok a) \/ (exists e, fst (p bs) = Err e).
Proof. intros H. apply H. Qed.
Lemma suffix_at {A} (p : parser A) bs : suffix_p p -> exists used, bs = used ++ snd (p bs).
Proof. intros H. apply H. Qed.

Lemma np_handshake_message cap : no_panic (read_handshake_message cap).
Proof. intros [|b bs]; cbn [read_handshake_message]; [right; eexists; reflexivity|]. apply no_panic_at. pt. Qed.
Lemma sf_handshake_message cap : suffix_p (read_handshake_message cap).
Proof. intros [|b bs]; cbn [read_handshake_message]; [exists []; reflexivity|]. apply suffix_at. pt. Qed.
Lemma np_com_response cap : no_panic (read_com_response cap).
Proof. intros [|b bs]; cbn [read_com_response]; [right; eexists; reflexivity|]. apply no_panic_at. pt. Qed.
Lemma sf_com_response cap : suffix_p (read_com_response cap).
Proof. intros [|b bs]; cbn [read_com_response]; [exists []; reflexivity|]. apply suffix_at. pt. Qed.
Lemma sf_greeting : suffix_p read_initial_handshake. Proof. unfold read_initial_handshake. pt. Qed.
#[export] Hint Resolve np_handshake_message sf_handshake_message np_com_response sf_com_response sf_greeting : parse.

(** the greeting panics on no other input than one announcing a seed shorter than 8 *)
Lemma csub_panics_only a b p rest bs : plift (csub a b) bs = (Panic p, rest) -> a < b /\ p = PArith.
Proof. unfold plift, csub. destruct (N.ltb_spec a b); intros H1; inversion H1; auto. Qed.
