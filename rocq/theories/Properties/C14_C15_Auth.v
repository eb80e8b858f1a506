(** C14, C15, C49: authentication.  What servers verify: Spec/AuthSpec.v.  The digests
    are arbitrary functions; [Spec/Sha.v] gives real ones for the examples. *)
From Coq Require Import Strings.String.
From Verif Require Import Model.Base Model.Packet Model.Conn Model.Auth Model.Utf8
  Spec.Framing Spec.Wire Spec.Packets Spec.AuthSpec Spec.Session Spec.Sha Proofs.AuthProofs.
Open Scope N_scope.

(** ** C14 *)
(** The server sends its nonce followed by a NUL byte. *)
Theorem C14_native_accepted : forall (sha1 sha256 : bytes -> bytes) pw nonce,
  (forall x, length (sha1 x) = 20%nat) -> pw <> [] ->
  exists resp p, gen_init_auth_resp sha1 sha256 (Native []) pw (nonce ++ [x00]) = (Ok resp, p) /\
    native_accepts sha1 (sha1 (sha1 pw)) nonce resp /\ length resp = 20%nat.
Proof. exact native_accepted. Qed.
Print Assumptions C14_native_accepted.

(** ... or without the NUL byte *)
Theorem C14_native_accepted_no_nul : forall (sha1 sha256 : bytes -> bytes) pw nonce,
  (forall x, length (sha1 x) = 20%nat) -> pw <> [] -> last nonce x01 <> x00 ->
  exists resp p, gen_init_auth_resp sha1 sha256 (Native []) pw nonce = (Ok resp, p) /\
    native_accepts sha1 (sha1 (sha1 pw)) nonce resp.
Proof. exact native_accepted'. Qed.
Print Assumptions C14_native_accepted_no_nul.

Theorem C14_empty_password : forall (sha1 sha256 : bytes -> bytes) p seed,
  exists p', gen_init_auth_resp sha1 sha256 p [] seed = (Ok [], p').
Proof. exact empty_password. Qed.
Print Assumptions C14_empty_password.

Example C14_example : exists resp p,
  gen_init_auth_resp sha1 sha256 (Native []) (str "secret") (str "abcdefghijklmnopqrst" ++ [x00]) = (Ok resp, p) /\
  native_accepts sha1 (sha1 (sha1 (str "secret"))) (str "abcdefghijklmnopqrst") resp /\ length resp = 20%nat.
Proof. apply C14_native_accepted; [apply sha1_length|discriminate]. Qed.

(** ** C15 *)
(** Finding: the nonce never reaches the scramble, so the response is the one for
    the empty nonce, whatever the server sent. *)
Theorem C15_nonce_ignored_refuted : forall (sha1 sha256 : bytes -> bytes) p pw seed,
  new_auth_plugin (str "caching_sha2_password") = Ok p -> pw <> [] ->
  fst (gen_init_auth_resp sha1 sha256 p pw seed) = Ok (scramble_caching_sha2 sha256 pw []).
Proof. exact sha2_ignores_nonce. Qed.
Print Assumptions C15_nonce_ignored_refuted.

(** and with the real SHA-256 a server rejects it *)
Theorem C15_rejected_refuted :
  let pw := str "secret" in let nonce := str "abcdefghijklmnopqrst" in
  exists p, new_auth_plugin (str "caching_sha2_password") = Ok p /\
    forall resp, fst (gen_init_auth_resp sha1 sha256 p pw (nonce ++ [x00])) = Ok resp ->
      ~ sha2_accepts sha256 (sha256 (sha256 pw)) nonce resp.
Proof. exact sha2_rejected_witness. Qed.
Print Assumptions C15_rejected_refuted.

(** The scramble itself is right for the nonce it is given ... *)
Theorem C15_scramble_accepted_partial : forall (sha256 : bytes -> bytes) pw nonce,
  (forall x, length (sha256 x) = 32%nat) ->
  sha2_accepts sha256 (sha256 (sha256 pw)) nonce (scramble_caching_sha2 sha256 pw nonce).
Proof. exact sha2_scramble_accepted. Qed.
Print Assumptions C15_scramble_accepted_partial.

(** ... and the exchange after it: 0x03 ends it successfully with nothing more to
    send, every other answer is an error (full authentication is not implemented). *)
Theorem C15_exchange : forall (sha1 sha256 : bytes -> bytes) p pw seed,
  new_auth_plugin (str "caching_sha2_password") = Ok p -> pw <> [] ->
  exists resp p1, gen_init_auth_resp sha1 sha256 p pw seed = (Ok resp, p1) /\
    (forall rest, exists p2, auth_next sha1 sha256 p1 (x03 :: rest) = (Ok [], p2)) /\
    (forall b rest, b <> x03 -> exists p2, auth_next sha1 sha256 p1 (b :: rest) = (Err ECustom, p2)) /\
    auth_next sha1 sha256 p1 [] = (Err ECustom, p1).
Proof. exact sha2_flow. Qed.
Print Assumptions C15_exchange.

Example C15_example : sha2_accepts sha256 (sha256 (sha256 (str "pw"))) (str "nonce")
  (scramble_caching_sha2 sha256 (str "pw") (str "nonce")).
Proof. apply C15_scramble_accepted_partial, sha256_length. Qed.

(** ** C49: the whole login *)
Theorem C49_native_login : forall (sha1 sha256 : bytes -> bytes) checks opts c
    version conn_id seed_1 cap charset status auth_len seed_2 nonce
    affected insert_id ok_status warnings info state d,
  (forall x, length (sha1 x) = 20%nat) ->
  let plugin := str "mysql_native_password" in
  greeting_ok version conn_id seed_1 cap charset status auth_len seed_2 plugin ->
  seed_1 ++ seed_2 = nonce ++ [x00] ->
  no_nul (o_username opts) -> no_nul (o_database opts) ->
  N.of_nat (length (o_username opts)) < 2 ^ 20 -> N.of_nat (length (o_database opts)) < 2 ^ 20 ->
  c_cap c = 0 -> accepting (c_ws c) ->
  affected < 2 ^ 64 -> insert_id < 2 ^ 64 -> ok_status < 2 ^ 15 -> warnings < 2 ^ 16 ->
  N.of_nat (length info) < 2 ^ 64 -> N.of_nat (length state) < 2 ^ 64 ->
  let caps := client_caps (o_database opts) in
  awaits_numbered c x00 (greeting_wire version conn_id seed_1 cap charset status auth_len seed_2 plugin)
     [ok_wire caps 0 affected insert_id ok_status warnings info state] d ->
  exists c' login resp, handshake sha1 sha256 checks opts c = (Ok tt, c') /\ sent c c' [login] /\
    server_login login = Some (mk_login caps 0xffffff 33 (o_username opts) resp
      (match o_database opts with [] => None | db => Some db end) (Some plugin) None, []) /\
    (o_password opts = [] -> resp = []) /\
    (o_password opts <> [] -> native_accepts sha1 (sha1 (sha1 (o_password opts))) nonce resp) /\
    c_cap c' = caps /\ c_status c' = ok_status /\ c_pkt_nr c' = 0 /\ delivered (c_rd c') = d /\ accepting (c_ws c').
Proof. exact native_login. Qed.
Print Assumptions C49_native_login.

Theorem C49_sha2_login : forall (sha1 sha256 : bytes -> bytes) checks opts c
    version conn_id seed_1 cap charset status auth_len seed_2
    affected insert_id ok_status warnings info state d,
  (forall x, length (sha256 x) = 32%nat) ->
  let plugin := str "caching_sha2_password" in
  greeting_ok version conn_id seed_1 cap charset status auth_len seed_2 plugin ->
  o_password opts <> [] ->
  no_nul (o_username opts) -> no_nul (o_database opts) ->
  N.of_nat (length (o_username opts)) < 2 ^ 20 -> N.of_nat (length (o_database opts)) < 2 ^ 20 ->
  c_cap c = 0 -> accepting (c_ws c) ->
  affected < 2 ^ 64 -> insert_id < 2 ^ 64 -> ok_status < 2 ^ 15 -> warnings < 2 ^ 16 ->
  N.of_nat (length info) < 2 ^ 64 -> N.of_nat (length state) < 2 ^ 64 ->
  let caps := client_caps (o_database opts) in
  awaits_numbered c x00 (greeting_wire version conn_id seed_1 cap charset status auth_len seed_2 plugin)
     [more_wire [x03]; ok_wire caps 0 affected insert_id ok_status warnings info state] d ->
  exists c' login, handshake sha1 sha256 checks opts c = (Ok tt, c') /\ sent c c' [login] /\
    server_login login = Some (mk_login caps 0xffffff 33 (o_username opts)
      (scramble_caching_sha2 sha256 (o_password opts) [])
      (match o_database opts with [] => None | db => Some db end) (Some plugin) None, []) /\
    c_cap c' = caps /\ c_status c' = ok_status /\ c_pkt_nr c' = 0 /\ delivered (c_rd c') = d /\ accepting (c_ws c').
Proof. exact sha2_login. Qed.
Print Assumptions C49_sha2_login.

(** an error reply makes the login fail, whatever was exchanged before *)
Theorem C49_error_reply : forall (sha1 sha256 : bytes -> bytes) checks cap fuel p c code state msg ps d,
  awaits c (err_wire cap code state msg :: ps) d -> code < 2 ^ 16 -> cap_protocol_41 cap = true ->
  exists c', handshake_loop sha1 sha256 checks cap (S fuel) p c = (Err EPacket, c').
Proof. exact handshake_loop_err. Qed.
Print Assumptions C49_error_reply.

(** a server naming a method the client does not have: the login fails with an error of its own, before the
    name or anything about the password is sent *)
Theorem C49_unknown_method : forall (sha1 sha256 : bytes -> bytes) checks opts c
    version conn_id seed_1 cap charset status auth_len seed_2 plugin ps d,
  greeting_ok version conn_id seed_1 cap charset status auth_len seed_2 plugin -> no_nul plugin -> utf8_valid plugin = true ->
  plugin <> str "mysql_native_password" -> plugin <> str "caching_sha2_password" ->
  awaits_numbered c x00 (greeting_wire version conn_id seed_1 cap charset status auth_len seed_2 plugin) ps d ->
  exists c', handshake sha1 sha256 checks opts c = (Err ECustom, c') /\ c_out c' = c_out c.
Proof. exact greeting_unknown. Qed.
Print Assumptions C49_unknown_method.
(** Finding: a server asking to switch the authentication method makes the client panic. *)
Theorem C49_switch_refuted : forall (sha1 sha256 : bytes -> bytes) checks opts c
    version conn_id seed_1 cap charset status auth_len seed_2 p0 resp p1 plugin plugin' data d,
  greeting_ok version conn_id seed_1 cap charset status auth_len seed_2 plugin ->
  no_nul plugin -> utf8_valid plugin = true -> N.of_nat (length plugin) < 2 ^ 20 ->
  new_auth_plugin plugin = Ok p0 ->
  gen_init_auth_resp sha1 sha256 p0 (o_password opts) (seed_1 ++ seed_2) = (Ok resp, p1) ->
  N.of_nat (length resp) < 251 -> no_nul (o_username opts) -> no_nul (o_database opts) ->
  N.of_nat (length (o_username opts)) < 2 ^ 20 -> N.of_nat (length (o_database opts)) < 2 ^ 20 ->
  c_cap c = 0 -> accepting (c_ws c) -> no_nul plugin' -> utf8_valid plugin' = true ->
  awaits_numbered c x00 (greeting_wire version conn_id seed_1 cap charset status auth_len seed_2 plugin)
    [switch_wire plugin' data] d ->
  exists c', handshake sha1 sha256 checks opts c = (Panic PUnimplemented, c').
Proof. exact greeting_switch. Qed.
Print Assumptions C49_switch_refuted.

(** a login replayed on a concrete server: greeting, then OK, read in odd chunks *)
Example C49_example :
  let g := greeting_wire (str "8.0.30") 9 (repeat x41 8) 0x00088200 33 2 21 (repeat x42 12 ++ [x00])
             (str "mysql_native_password") in
  let ok := ok_wire (client_caps []) 0 0 0 2 0 [] [] in
  let c := mk_conn [RPending; RData [n2b (blen g); x00]; RData ([x00; x00] ++ g ++ [n2b (blen ok)]); RPending;
                    RData ([x00; x00; x02] ++ ok)] [WAccept 3; WPending] [] 0 0 0 in
  exists c', handshake sha1 sha256 true (mk_opts (str "root") (str "pw") []) c = (Ok tt, c') /\ c_status c' = 2
    /\ c_cap c' = client_caps [].
Proof. vm_compute. eexists. split; [reflexivity|]. split; reflexivity. Qed.
