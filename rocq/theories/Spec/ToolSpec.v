(** * Specification vocabulary: the two programs, run against servers

    A program opens a connection, logs in and sends commands.  A server is given by the messages it sends and
    by how it understands what it gets. *)
From Coq Require Import Strings.String.
From Coq Require Import List NArith Bool.
From Verif Require Import Model.Base Model.Conn Model.Auth Model.Event Model.Stream Model.Tools
  Spec.Framing Spec.Nums Spec.Wire Spec.Catalogue Spec.Session Spec.Packets Spec.AuthSpec Spec.ResultSets Spec.StreamSpec Spec.BinlogSpec.
Import ListNotations.
Open Scope N_scope.

(** what every program announces and decodes with: a login without a database *)
Definition tool_caps : N := client_caps [].
(** the same without DEPRECATE_EOF: what a server before MySQL 5.7.5 agrees to *)
Definition classic_caps : N := tool_caps - 2 ^ 24.

(** a greeting: its bytes, the method it asks for and its nonce *)
Inductive greets (plugin nonce : bytes) : bytes -> Prop :=
| gr version conn_id seed_1 cap charset status auth_len seed_2 :
    greeting_ok version conn_id seed_1 cap charset status auth_len seed_2 plugin ->
    seed_1 ++ seed_2 = nonce ++ [x00] ->
    greets plugin nonce (greeting_wire version conn_id seed_1 cap charset status auth_len seed_2 plugin).
(** an OK packet of any content *)
Definition any_ok (m : bytes) : Prop :=
  exists affected insert_id status warnings info state, affected < 2 ^ 64 /\ insert_id < 2 ^ 64 /\ status < 2 ^ 15 /\
    warnings < 2 ^ 16 /\ N.of_nat (length info) < 2 ^ 64 /\ N.of_nat (length state) < 2 ^ 64 /\
    m = ok_wire tool_caps 0 affected insert_id status warnings info state.
(** The server behind [s] greets the client, accepts its login and then sends the messages [ps]; the bytes [d]
    come last.  With caching_sha2_password it says first that its cache decided. *)
Inductive admits (pw : bytes) (s : socket) (plugin nonce : bytes) (ps : list bytes) (d : bytes) : Prop :=
| ad_native g ok : plugin = str "mysql_native_password" -> greets plugin nonce g -> any_ok ok -> accepting (snd s) ->
    awaits_numbered (conn_new s) x00 g (ok :: ps) d -> admits pw s plugin nonce ps d
| ad_sha2 g ok : plugin = str "caching_sha2_password" -> pw <> [] -> greets plugin nonce g -> any_ok ok -> accepting (snd s) ->
    awaits_numbered (conn_new s) x00 g ([x01; x03] :: ok :: ps) d -> admits pw s plugin nonce ps d.
(** the server greets the client and answers its login with an error *)
Definition rejects (s : socket) : Prop :=
  accepting (snd s) /\ exists plugin nonce g code state msg d, (plugin = str "mysql_native_password" \/ plugin = str "caching_sha2_password") /\ greets plugin nonce g /\ code < 2 ^ 16 /\
    awaits_numbered (conn_new s) x00 g [err_wire tool_caps code state msg] d.

(** what the server reads in the first message of a client: the user, no database, the method and, for
    mysql_native_password, a proof that the client knows the password *)
Definition logs_in (sha1 : bytes -> bytes) (user pw plugin nonce m : bytes) : Prop :=
  exists resp, server_login m = Some (mk_login tool_caps 0xffffff 33 user resp None (Some plugin) None, []) /\
    (plugin = str "mysql_native_password" ->
       (pw = [] -> resp = []) /\ (pw <> [] -> native_accepts sha1 (sha1 (sha1 pw)) nonce resp)).
(** everything a program sent on a connection: its login and then exactly the requests [reqs] *)
Definition said (c : conn) (login : bytes -> Prop) (reqs : list (bytes -> Prop)) : Prop :=
  exists m w ms w', login m /\ messages_wire [m] w /\ commands_wire ms w' /\ Forall2 (fun rq m => rq m) reqs ms /\ c_out c = w ++ w'.

(** A server that is ready to send its log: the requests it gets, the messages it answers with up to the first
    event, and how the events that follow are written *)
Inductive opens_log (cap : N) (o : binlog_options) (uuid : bytes) (slave_id : N) : list (bytes -> Prop) -> list bytes -> parser_v4 -> Prop :=
| ol master_id algorithm mode qs ans sum m1 m2 fd : set_up cap o uuid slave_id master_id algorithm mode qs ans ->
    (sum = true <-> algorithm = str "CRC32") -> rotate_message sum m1 -> description_message fd m2 ->
    opens_log cap o uuid slave_id (qs ++ [asks cap (expected_dump (beqb mode (str "ON")) slave_id o)]) (ans ++ [m1; m2]) (described_parser fd).

(** a filter given on the command line and the names it lets through *)
Definition filter_is (compile : bytes -> option (bytes -> bool)) (f : option bytes) (p : option (bytes -> bool)) : Prop :=
  match f with None => p = None | Some s => p <> None /\ p = compile s end.
(** a filter that is not a regular expression *)
Definition filter_bad (compile : bytes -> option (bytes -> bool)) (f : option bytes) : Prop :=
  exists s, f = Some s /\ compile s = None.

(** the same server over another network: the same bytes in other portions *)
Definition same_bytes (s1 s2 : socket) : Prop :=
  delivered (fst s1) = delivered (fst s2) /\ accepting (snd s1) /\ accepting (snd s2).
(** the second got [lost] more bytes before the connection ended *)
Definition fewer_bytes (lost : bytes) (s1 s2 : socket) : Prop :=
  delivered (fst s2) = delivered (fst s1) ++ lost /\ accepting (snd s1) /\ accepting (snd s2).

(** the data of a row event: the table, flags, the length of the extra data and the rest *)
Definition row_event_data (data : bytes) (extra_len : N) (payload : bytes) : Prop :=
  exists id flags l, length id = 6%nat /\ length flags = 2%nat /\ length l = 2%nat /\
    extra_len = le_val l /\ data = id ++ flags ++ l ++ payload.
(** a row event in which no column is present although row bytes follow: no number of rows uses them up *)
Definition endless (e : event) : Prop :=
  exists extra_len payload, row_event_data (ev_data e) extra_len payload /\
    (((ev_kind e = KWriteRowsV2 \/ ev_kind e = KDeleteRowsV2) /\
        exists n bm more, announces extra_len payload n (bm ++ more) /\ none_present n bm /\ more <> []) \/
     (ev_kind e = KUpdateRowsV2 /\
        exists n before after more, announces extra_len payload n (before ++ after ++ more) /\
          none_present n before /\ none_present n after /\ more <> [])).
