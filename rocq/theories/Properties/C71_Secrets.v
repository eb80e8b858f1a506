(** C71: the password stays with the client.

    Two runs are compared, with passwords [p] and [q] that have the same digests
    (and are both empty or both not).  Everything else is the same: the peer, the
    chunks and pauses of its bytes, the pauses of the socket.  The peer may send
    anything.  If the runs cannot be told apart then nothing the client sends, prints
    or returns says more about the password than its digests do.  The digests are
    arbitrary functions, so that there are such passwords. *)
From Coq Require Import Strings.String.
From Verif Require Import Model.Base Model.BytesParser Model.Packet Model.Conn Model.Auth Model.Session Model.Event Model.Stream
  Model.Transform Model.MyBinlog Model.Tools Spec.Framing Spec.Wire Spec.Packets Spec.AuthSpec Spec.Session Spec.Sha
  Proofs.AuthProofs Proofs.SecretProofs.
Open Scope N_scope.

(** logging in: the result, all the bytes sent and the connection afterwards *)
Theorem C71_login : forall (sha1 sha256 : bytes -> bytes) p q, sha1 p = sha1 q -> sha256 p = sha256 q -> (p = [] <-> q = []) ->
  forall checks user db c,
  handshake sha1 sha256 checks (mk_opts user p db) c = handshake sha1 sha256 checks (mk_opts user q db) c.
Proof. intros sha1 sha256 p q H1 H256 He checks user db c. apply login_alike; assumption. Qed.
Print Assumptions C71_login.

(** changing the user, also when the server asks for another method *)
Theorem C71_change_user : forall (sha1 sha256 : bytes -> bytes) p q, sha1 p = sha1 q -> sha256 p = sha256 q -> (p = [] <-> q = []) ->
  forall checks user db attrs c,
  conn_change_user sha1 sha256 checks user p db attrs c = conn_change_user sha1 sha256 checks user q db attrs c.
Proof. intros sha1 sha256 p q H1 H256 He checks user db attrs c. apply change_alike; assumption. Qed.
Print Assumptions C71_change_user.

(** the tools: result, printed lines and the connections *)
Theorem C71_tools : forall (sha1 sha256 : bytes -> bytes) p q, sha1 p = sha1 q -> sha256 p = sha256 q -> (p = [] <-> q = []) ->
  forall fmt_f32 fmt_f64 crc checks compile uuid random_id user filename until_now df tf block limit s s2,
  exec_list sha1 sha256 checks user p s = exec_list sha1 sha256 checks user q s /\
  exec_dml sha1 sha256 fmt_f32 fmt_f64 crc checks compile uuid random_id user p filename until_now df tf block limit s s2 =
    exec_dml sha1 sha256 fmt_f32 fmt_f64 crc checks compile uuid random_id user q filename until_now df tf block limit s s2 /\
  watch sha1 sha256 crc checks uuid random_id (CTcp user p) s = watch sha1 sha256 crc checks uuid random_id (CTcp user q) s.
Proof.
  intros sha1 sha256 p q H1 H256 He fmt_f32 fmt_f64 crc checks compile uuid random_id user filename un df tf block limit s s2.
  split; [apply list_alike; assumption|]. split; [apply dml_alike; assumption|apply watch_alike; assumption].
Qed.
Print Assumptions C71_tools.

(** With mysql_native_password a recorded login is of no use later: a server that accepts
    the answer to [nonce] as the answer to [nonce'] has sent the same nonce twice, or two
    inputs with one SHA-1 digest are known. *)
Theorem C71_native_replay : forall (sha1 sha256 : bytes -> bytes) pw nonce nonce' resp p,
  (forall x, length (sha1 x) = 20%nat) -> pw <> [] ->
  gen_init_auth_resp sha1 sha256 (Native []) pw (nonce ++ [x00]) = (Ok resp, p) ->
  native_accepts sha1 (sha1 (sha1 pw)) nonce' resp ->
  nonce' = nonce \/ exists x y, x <> y /\ sha1 x = sha1 y.
Proof.
  intros sha1 sha256 pw nonce nonce' resp p Hl Hp E A.
  destruct (native_accepted sha1 sha256 pw nonce Hl Hp) as (r & p' & E' & A' & _). rewrite E in E'.
  assert (resp = r) as -> by congruence. apply (native_replay sha1 _ nonce' nonce r A A').
Qed.
Print Assumptions C71_native_replay.

(** Finding: with caching_sha2_password the login is the same for every nonce, so whoever
    has seen one has seen all. *)
Theorem C71_sha2_replay_refuted : forall (sha1 sha256 : bytes -> bytes) opts,
  (forall x, length (sha256 x) = 32%nat) -> o_password opts <> [] ->
  no_nul (o_username opts) -> no_nul (o_database opts) ->
  N.of_nat (length (o_username opts)) < 2 ^ 20 -> N.of_nat (length (o_database opts)) < 2 ^ 20 ->
  let plugin := str "caching_sha2_password" in let caps := client_caps (o_database opts) in
  exists once, forall checks c version conn_id seed_1 cap charset status auth_len seed_2
      affected insert_id ok_status warnings info state d,
    greeting_ok version conn_id seed_1 cap charset status auth_len seed_2 plugin ->
    c_cap c = 0 -> accepting (c_ws c) ->
    affected < 2 ^ 64 -> insert_id < 2 ^ 64 -> ok_status < 2 ^ 15 -> warnings < 2 ^ 16 ->
    N.of_nat (length info) < 2 ^ 64 -> N.of_nat (length state) < 2 ^ 64 ->
    awaits_numbered c x00 (greeting_wire version conn_id seed_1 cap charset status auth_len seed_2 plugin)
       [more_wire [x03]; ok_wire caps 0 affected insert_id ok_status warnings info state] d ->
    exists c' login, handshake sha1 sha256 checks opts c = (Ok tt, c') /\ sent c c' [login] /\
      server_login login = Some (once, []).
Proof.
  intros sha1 sha256 opts Hl Hp Hu Hd Lu Ld plugin caps. eexists.
  intros checks c version conn_id seed_1 cap charset status auth_len seed_2 affected insert_id ok_status warnings info state d
    Hg Hc Ha H1 H2 H3 H4 H5 H6 Aw.
  destruct (sha2_login sha1 sha256 checks opts c version conn_id seed_1 cap charset status auth_len seed_2
    affected insert_id ok_status warnings info state d Hl Hg Hp Hu Hd Lu Ld Hc Ha H1 H2 H3 H4 H5 H6 Aw)
    as (c' & login & E & S & L & _).
  exists c', login. split; [exact E|]. split; [exact S|exact L].
Qed.
Print Assumptions C71_sha2_replay_refuted.

(** SHA-1 and SHA-256, except that "hunter2" has the digests of "secret": two passwords
    that meet the hypotheses, and a login to a concrete server *)
Definition but (h : bytes -> bytes) (x : bytes) : bytes := if beqb x (str "hunter2") then h (str "secret") else h x.
Example C71_example :
  let g := greeting_wire (str "8.0.30") 9 (repeat x41 8) 0x00088200 33 2 21 (repeat x42 12 ++ [x00])
             (str "mysql_native_password") in
  let ok := ok_wire (client_caps []) 0 0 0 2 0 [] [] in
  let c := mk_conn [RData [n2b (blen g); x00]; RData ([x00; x00] ++ g ++ [n2b (blen ok)]); RPending;
                    RData ([x00; x00; x02] ++ ok)] [WAccept 3; WPending] [] 0 0 0 in
  let run pw := handshake (but sha1) (but sha256) true (mk_opts (str "root") pw []) c in
  run (str "secret") = run (str "hunter2") /\ fst (run (str "secret")) = Ok tt /\
  c_out (snd (run (str "secret"))) <> c_out (snd (run (str "other"))).
Proof.
  intros g ok c run. split; [apply C71_login; [vm_compute; reflexivity|vm_compute; reflexivity|split; discriminate]|].
  split; [vm_compute; reflexivity|]. vm_compute. discriminate.
Qed.
Example C71_example_replay : forall resp p,
  gen_init_auth_resp sha1 sha256 (Native []) (str "secret") (str "abcdefghijklmnopqrst" ++ [x00]) = (Ok resp, p) ->
  native_accepts sha1 (sha1 (sha1 (str "secret"))) (str "abcdefghijklmnopqrst") resp /\
  ~ native_accepts sha1 (sha1 (sha1 (str "secret"))) (str "tsrqponmlkjihgfedcba") resp.
Proof.
  intros resp p E. split.
  - destruct (native_accepted sha1 sha256 (str "secret") (str "abcdefghijklmnopqrst") sha1_length) as (r & p' & E' & A & _); [discriminate|].
    rewrite E in E'. assert (resp = r) as -> by congruence. exact A.
  - assert (resp = match fst (gen_init_auth_resp sha1 sha256 (Native []) (str "secret") (str "abcdefghijklmnopqrst" ++ [x00])) with
      Ok r => r | _ => [] end) as -> by (rewrite E; reflexivity).
    intros (s1 & E1 & D). revert D.
    assert (s1 = match bxor (match fst (gen_init_auth_resp sha1 sha256 (Native []) (str "secret") (str "abcdefghijklmnopqrst" ++ [x00])) with
      Ok r => r | _ => [] end) (sha1 (str "tsrqponmlkjihgfedcba" ++ sha1 (sha1 (str "secret")))) with Some s => s | None => [] end) as ->
      by (rewrite E1; reflexivity).
    vm_compute. discriminate.
Qed.
