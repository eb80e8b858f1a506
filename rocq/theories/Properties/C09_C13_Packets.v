(** C09-C13: generic responses and the handshake.  Wire formats: Spec/Packets.v. *)
From Verif Require Import Model.Base Model.BytesParser Model.Utf8 Model.Packet Spec.Wire Spec.Packets
  Proofs.BaseLemmas Proofs.PacketProofs.
Open Scope N_scope.

(** ** C09: ERR packets *)
Theorem C09_err_decodes : forall cap code state msg, code < 2 ^ 16 -> length state = 5%nat ->
  read_err_packet cap true (err_wire cap code state msg)
  = (Ok (mk_err 255 code (if cap_protocol_41 cap then 0x23 else 0)
                (if cap_protocol_41 cap then state else []) msg), []).
Proof. exact err_decodes. Qed.
Print Assumptions C09_err_decodes.

(** and the caller of a command sees an SQL error with these fields *)
Theorem C09_err_surfaces : forall cap code state msg, code < 2 ^ 16 -> length state = 5%nat ->
  utf8_valid state = true -> utf8_valid msg = true -> cap_protocol_41 cap = true ->
  exists p, read_com_response cap (err_wire cap code state msg) = (Ok (CrErr p), [])
    /\ error_of_err_packet p = ESql code x23 state msg.
Proof. exact err_surfaces. Qed.
Print Assumptions C09_err_surfaces.

Theorem C09_err_not_utf8 : forall p, utf8_valid (er_state p) && utf8_valid (er_message p) = false ->
  error_of_err_packet p = EUtf8.
Proof. exact err_not_utf8. Qed.
Print Assumptions C09_err_not_utf8.

(** Finding: an ERR packet answering the login (protocol 4.1 negotiated) is decoded
    without its SQL state; marker and state end up in the message. *)
Theorem C09_handshake_err_refuted : forall cap code state msg, code < 2 ^ 16 -> cap_protocol_41 cap = true ->
  read_handshake_message cap (err_wire cap code state msg)
  = (Ok (HmErr (mk_err 255 code 0 [] (x23 :: state ++ msg))), []).
Proof. exact handshake_err. Qed.
Print Assumptions C09_handshake_err_refuted.

(** an ERR packet without state, as sent before capabilities are known, is decoded exactly *)
Theorem C09_handshake_err_early : forall cap code msg, code < 2 ^ 16 ->
  read_handshake_message cap (err_wire 0 code [] msg) = (Ok (HmErr (mk_err 255 code 0 [] msg)), []).
Proof. exact handshake_err_plain. Qed.
Print Assumptions C09_handshake_err_early.

Example C09_example : exists p,
  read_com_response 0x0200 [xff; x48; x04; x23; x48; x59; x30; x30; x30; x4e; x6f] = (Ok (CrErr p), [])
  /\ error_of_err_packet p = ESql 1096 x23 [x48; x59; x30; x30; x30] [x4e; x6f].
Proof. apply (C09_err_surfaces 0x0200 1096 [x48; x59; x30; x30; x30] [x4e; x6f]); reflexivity. Qed.

(** ** C10: OK packets *)
Theorem C10_ok_decodes : forall cap header affected insert_id status warnings info state,
  header < 256 -> affected < 2 ^ 64 -> insert_id < 2 ^ 64 -> status < 2 ^ 15 -> warnings < 2 ^ 16 ->
  N.of_nat (length info) < 2 ^ 64 -> N.of_nat (length state) < 2 ^ 64 ->
  read_ok_packet cap (ok_wire cap header affected insert_id status warnings info state)
  = (Ok (mk_ok header affected insert_id (sent_status cap status) (sent_warnings cap warnings) info
               (if sends_state cap status then state else [])), []).
Proof. exact ok_decodes. Qed.
Print Assumptions C10_ok_decodes.

(** Finding: a status word with bit 15 set (no flag is assigned to it) is rejected. *)
Theorem C10_status_bit15_refuted : forall cap header affected insert_id status rest,
  header < 256 -> affected < 2 ^ 64 -> insert_id < 2 ^ 64 -> 2 ^ 15 <= status < 2 ^ 16 ->
  cap_protocol_41 cap = true ->
  read_ok_packet cap (n2b header :: wlenenc affected ++ wlenenc insert_id ++ wle 2 status ++ rest)
  = (Err EConstraint, rest).
Proof. exact ok_status_rejected. Qed.
Print Assumptions C10_status_bit15_refuted.

(** Finding: with session tracking, an OK packet whose empty info string is left out
    (as MySQL servers do when there is nothing to report) is rejected. *)
Theorem C10_omitted_info_refuted : forall cap header affected insert_id status warnings,
  header < 256 -> affected < 2 ^ 64 -> insert_id < 2 ^ 64 -> status < 2 ^ 15 -> warnings < 2 ^ 16 ->
  cap_protocol_41 cap = true -> cap_session_track cap = true ->
  exists e, read_ok_packet cap
    (n2b header :: wlenenc affected ++ wlenenc insert_id ++ wle 2 status ++ wle 2 warnings) = (Err e, []).
Proof. exact ok_omitted_info. Qed.
Print Assumptions C10_omitted_info_refuted.

Example C10_example : read_ok_packet 0x00802200 (ok_wire 0x00802200 0 70000 7 0x4002 1 [x41] [x42; x43])
  = (Ok (mk_ok 0 70000 7 0x4002 1 [x41] [x42; x43]), []).
Proof. apply (C10_ok_decodes 0x00802200); reflexivity. Qed.

(** ** C11: EOF packets, classification by the first byte *)
Theorem C11_eof_decodes : forall cap warnings status, warnings < 2 ^ 16 -> status < 2 ^ 15 ->
  read_eof_packet cap (eof_wire cap warnings status)
  = (Ok (mk_eof 254 (sent_warnings cap warnings) (if cap_protocol_41 cap then status else 0)), []).
Proof. exact eof_decodes. Qed.
Print Assumptions C11_eof_decodes.

Theorem C11_response_classified : forall cap b rest,
  (b <> x00 -> b <> xff -> read_com_response cap (b :: rest) = (Err EConstraint, b :: rest)) /\
  (forall p r, read_com_response cap (b :: rest) = (Ok (CrOk p), r) -> b = x00) /\
  (forall p r, read_com_response cap (b :: rest) = (Ok (CrErr p), r) -> b = xff) /\
  (b = x00 -> forall p r, read_ok_packet cap (b :: rest) = (Ok p, r) ->
     read_com_response cap (b :: rest) = (Ok (CrOk p), r)) /\
  (b = xff -> forall p r, read_err_packet cap true (b :: rest) = (Ok p, r) ->
     read_com_response cap (b :: rest) = (Ok (CrErr p), r)).
Proof. exact com_classified. Qed.
Print Assumptions C11_response_classified.

Theorem C11_handshake_classified : forall cap b rest,
  (b <> x00 -> b <> x01 -> b <> xff -> b <> xfe ->
     read_handshake_message cap (b :: rest) = (Err EConstraint, b :: rest)) /\
  (forall m r, read_handshake_message cap (b :: rest) = (Ok m, r) -> b = hm_header m).
Proof. exact handshake_classified. Qed.
Print Assumptions C11_handshake_classified.

Theorem C11_switch_decodes : forall cap plugin data, no_nul plugin -> utf8_valid plugin = true ->
  read_handshake_message cap (switch_wire plugin data) = (Ok (HmSwitch (mk_switch 254 plugin data)), []).
Proof. exact switch_decodes. Qed.
Print Assumptions C11_switch_decodes.

Theorem C11_more_decodes : forall cap data,
  read_handshake_message cap (more_wire data) = (Ok (HmMore (mk_more 1 data)), []).
Proof. exact more_decodes. Qed.
Print Assumptions C11_more_decodes.

Example C11_example : read_eof_packet 0x0200 (eof_wire 0x0200 3 0x22) = (Ok (mk_eof 254 3 0x22), [])
  /\ read_com_response 0x0200 [x07; x00] = (Err EConstraint, [x07; x00]).
Proof.
  split; [apply (C11_eof_decodes 0x0200); reflexivity|].
  apply (proj1 (C11_response_classified 0x0200 x07 [x00])); discriminate.
Qed.

(** ** C12: the greeting *)
Theorem C12_greeting_decodes : forall version conn_id seed_1 cap charset status auth_len seed_2 plugin,
  no_nul version -> conn_id < 2 ^ 32 -> length seed_1 = 8%nat -> cap < 2 ^ 32 -> charset < 2 ^ 8 ->
  status < 2 ^ 16 -> auth_len < 2 ^ 8 -> (cap_secure_connection cap = true -> 8 <= auth_len) ->
  N.of_nat (length seed_2) = N.max 13 (auth_len - 8) -> no_nul plugin -> utf8_valid plugin = true ->
  read_initial_handshake (greeting_wire version conn_id seed_1 cap charset status auth_len seed_2 plugin)
  = (Ok (mk_hs 10 version conn_id seed_1 charset status cap auth_len
           (if cap_secure_connection cap then seed_2 else [])
           (if cap_plugin_auth cap then plugin else [])), []).
Proof. exact greeting_decodes. Qed.
Print Assumptions C12_greeting_decodes.

(** Finding: a server announcing SECURE_CONNECTION and a seed length below 8 (a
    server without PLUGIN_AUTH sends 0) makes the client panic. *)
Theorem C12_short_seed_refuted : forall version conn_id seed_1 cap charset status auth_len seed_2 plugin,
  no_nul version -> conn_id < 2 ^ 32 -> length seed_1 = 8%nat -> cap < 2 ^ 32 -> charset < 2 ^ 8 ->
  status < 2 ^ 16 -> cap_secure_connection cap = true -> auth_len < 8 ->
  exists r, read_initial_handshake
    (greeting_wire version conn_id seed_1 cap charset status auth_len seed_2 plugin) = (Panic PArith, r).
Proof. exact greeting_panics. Qed.
Print Assumptions C12_short_seed_refuted.

Example C12_example :
  let g := greeting_wire [x38; x2e; x30] 77 (repeat x41 8) 0x00088200 33 2 21 (repeat x42 12 ++ [x00]) [x6d; x79] in
  read_initial_handshake g
  = (Ok (mk_hs 10 [x38; x2e; x30] 77 (repeat x41 8) 33 2 0x00088200 21 (repeat x42 12 ++ [x00]) [x6d; x79]), []).
Proof.
  apply (C12_greeting_decodes [x38; x2e; x30] 77 (repeat x41 8) 0x00088200 33 2 21 (repeat x42 12 ++ [x00]) [x6d; x79]);
    try reflexivity; try (intros _; discriminate); intros [H|[H|H]]; try discriminate H.
  destruct H as [H|[]]; discriminate.
  destruct H.
Qed.

(** ** C13: the login packet *)
Theorem C13_login_decodes : forall r, login_ok r ->
  cap_lenenc_auth (hr_cap r) = true \/
    (cap_secure_connection (hr_cap r) = true /\ N.of_nat (length (hr_auth r)) < 251) ->
  server_login (write_handshake_response r) = Some (mk_login (hr_cap r) (hr_max_packet r) (hr_charset r)
    (hr_username r) (hr_auth r)
    (if cap_connect_with_db (hr_cap r) then Some (hr_database r) else None)
    (if cap_plugin_auth (hr_cap r) then Some (hr_plugin r) else None)
    (if cap_connect_attrs (hr_cap r) then Some (map (fun a => (at_key a, at_value a)) (hr_attrs r)) else None), []).
Proof. exact login_decodes. Qed.
Print Assumptions C13_login_decodes.

(** Finding: an auth response of 251 bytes cannot be read by the server (see C03). *)
Theorem C13_auth_251_refuted : forall r, hr_cap r < 2 ^ 32 -> hr_max_packet r < 2 ^ 32 -> hr_charset r < 2 ^ 8 ->
  no_nul (hr_username r) -> N.of_nat (length (hr_auth r)) = 251 -> cap_lenenc_auth (hr_cap r) = true ->
  server_login (write_handshake_response r) = None.
Proof. exact login_251. Qed.
Print Assumptions C13_auth_251_refuted.

(** Finding: without SECURE_CONNECTION and without length encoded auth data, the
    server reads another auth response. *)
Theorem C13_plain_auth_refuted :
  exists r, login_ok r /\ exists l, server_login (write_handshake_response r) = Some (l, []) /\ l_auth l <> hr_auth r.
Proof.
  exists (mk_hr 0x0200 0xffffff 33 [x75] [x61; x00] [] [] []). split.
  - unfold login_ok, attr_ok, str_ok. splits; first [reflexivity | discriminate | unfold no_nul; cbn; intuition discriminate | split; [reflexivity|discriminate] | constructor].
  - vm_compute. eexists. split; [reflexivity|discriminate].
Qed.
Print Assumptions C13_plain_auth_refuted.

(** Finding: a user name containing a NUL byte is not rejected; the server sees
    another user. *)
Theorem C13_nul_in_user_refuted :
  exists r, cap_lenenc_auth (hr_cap r) = true /\ exists l rest,
    dcstr (skipn 32 (write_handshake_response r)) = Some (l, rest) /\ l <> hr_username r.
Proof. exists (mk_hr 0x00200200 0xffffff 33 [x75; x00; x75] [x61] [] [] []). split; [reflexivity|].
  vm_compute. do 2 eexists. split; [reflexivity|discriminate]. Qed.
Print Assumptions C13_nul_in_user_refuted.

Example C13_example :
  let r := mk_hr 0x00388208 0xffffff 33 [x72; x6f; x6f; x74] (repeat x01 20) [x64; x62] [x6d; x79]
             [mk_attr [x6b] (repeat x76 300)] in
  server_login (write_handshake_response r)
  = Some (mk_login 0x00388208 0xffffff 33 [x72; x6f; x6f; x74] (repeat x01 20) (Some [x64; x62]) (Some [x6d; x79])
            (Some [([x6b], repeat x76 300)]), []).
Proof.
  apply (C13_login_decodes (mk_hr 0x00388208 0xffffff 33 [x72; x6f; x6f; x74] (repeat x01 20) [x64; x62] [x6d; x79]
             [mk_attr [x6b] (repeat x76 300)])); [|left; reflexivity].
  unfold login_ok, attr_ok, str_ok. splits;
    first [reflexivity | discriminate | unfold no_nul; cbn; intuition discriminate | split; [reflexivity|discriminate] | idtac].
  repeat constructor; discriminate.
Qed.
