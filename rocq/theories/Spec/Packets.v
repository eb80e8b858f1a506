(** * Independent specification: generic response packets and the handshake

    From the MySQL client/server protocol documentation (OK_Packet, ERR_Packet,
    EOF_Packet, HandshakeV10, HandshakeResponse41, AuthSwitchRequest,
    AuthMoreData).  Capability bits are given by bit position. *)
From Coq Require Import List NArith Bool.
From Verif Require Import Model.Base Model.Packet Spec.Wire.
Import ListNotations.
Open Scope N_scope.

Definition cap_connect_with_db (c : N) : bool := N.testbit c 3.
Definition cap_protocol_41 (c : N) : bool := N.testbit c 9.
Definition cap_transactions (c : N) : bool := N.testbit c 13.
Definition cap_secure_connection (c : N) : bool := N.testbit c 15.
Definition cap_plugin_auth (c : N) : bool := N.testbit c 19.
Definition cap_connect_attrs (c : N) : bool := N.testbit c 20.
Definition cap_lenenc_auth (c : N) : bool := N.testbit c 21.
Definition cap_session_track (c : N) : bool := N.testbit c 23.
Definition status_session_changed (s : N) : bool := N.testbit s 14.

(** ** OK_Packet *)
(** the status word as far as it is transmitted *)
Definition sent_status (cap status : N) : N :=
  if cap_protocol_41 cap || cap_transactions cap then status else 0.
Definition sent_warnings (cap warnings : N) : N := if cap_protocol_41 cap then warnings else 0.
Definition sends_state (cap status : N) : bool :=
  cap_session_track cap && status_session_changed (sent_status cap status).

Definition ok_wire (cap header affected insert_id status warnings : N) (info state : bytes) : bytes :=
  n2b header :: wlenenc affected ++ wlenenc insert_id ++
  (if cap_protocol_41 cap then wle 2 status ++ wle 2 warnings
   else if cap_transactions cap then wle 2 status else []) ++
  (if cap_session_track cap then wlstr info ++ (if sends_state cap status then wlstr state else [])
   else info).

(** ** ERR_Packet *)
Definition err_wire (cap code : N) (state msg : bytes) : bytes :=
  xff :: wle 2 code ++ (if cap_protocol_41 cap then x23 :: state else []) ++ msg.

(** ** EOF_Packet *)
Definition eof_wire (cap warnings status : N) : bytes :=
  xfe :: (if cap_protocol_41 cap then wle 2 warnings ++ wle 2 status else []).

(** ** HandshakeV10.  [seed_1] has 8 bytes; [seed_2] has max(13, auth_len - 8) bytes. *)
Definition greeting_wire (version : bytes) (conn_id : N) (seed_1 : bytes) (cap charset status auth_len : N)
    (seed_2 plugin : bytes) : bytes :=
  x0a :: wcstr version ++ wle 4 conn_id ++ seed_1 ++ x00 :: wle 2 (cap mod 2 ^ 16) ++ wle 1 charset ++
  wle 2 status ++ wle 2 (cap / 2 ^ 16) ++ wle 1 auth_len ++ repeat x00 10 ++
  (if cap_secure_connection cap then seed_2 else []) ++
  (if cap_plugin_auth cap then wcstr plugin else []).

(** ** Auth switch and more data *)
Definition switch_wire (plugin data : bytes) : bytes := xfe :: wcstr plugin ++ data.
Definition more_wire (data : bytes) : bytes := x01 :: data.

(** ** HandshakeResponse41, as a server reads it *)
Record login := mk_login {
  l_cap : N; l_max_packet : N; l_charset : N; l_user : bytes; l_auth : bytes;
  l_database : option bytes; l_plugin : option bytes; l_attrs : option (list (bytes * bytes)) }.

(** key/value pairs up to the end of the attribute block *)
Fixpoint dpairs (fuel : nat) (bs : bytes) : option (list (bytes * bytes)) :=
  match fuel, bs with
  | _, [] => Some []
  | O, _ => None
  | S fuel, _ =>
      match (k <-- dlstr ;; v <-- dlstr ;; dret (k, v)) bs with
      | Some (kv, rest) => match dpairs fuel rest with Some l => Some (kv :: l) | None => None end
      | None => None
      end
  end.
Definition dattrs : dec (list (bytes * bytes)) :=
  block <-- dlstr ;; fun bs => match dpairs (length block) block with Some l => Some (l, bs) | None => None end.

Definition dopt {A} (present : bool) (d : dec A) : dec (option A) :=
  if present then (a <-- d ;; dret (Some a)) else dret None.

Definition server_login : dec login :=
  cap <-- dle 4 ;;
  max_packet <-- dle 4 ;;
  charset <-- dle 1 ;;
  _ <-- dbytes 23 ;;
  user <-- dcstr ;;
  auth <-- (if cap_lenenc_auth cap then dlstr
            else if cap_secure_connection cap then (n <-- dle 1 ;; dbytes (N.to_nat n))
            else dcstr) ;;
  db <-- dopt (cap_connect_with_db cap) dcstr ;;
  plugin <-- dopt (cap_plugin_auth cap) dcstr ;;
  attrs <-- dopt (cap_connect_attrs cap) dattrs ;;
  _ <-- dend ;;
  dret (mk_login cap max_packet charset user auth db plugin attrs).

(** ** Vocabulary over the library's types *)

(** the header byte a handshake message is announced by *)
Definition hm_header (m : handshake_message) : byte :=
  match m with HmOk _ => x00 | HmMore _ => x01 | HmErr _ => xff | HmSwitch _ => xfe end.

(** a string the library's length encoded writer handles (see C03/C04) *)
Definition str_ok (s : bytes) : Prop := N.of_nat (length s) < 2 ^ 64 /\ N.of_nat (length s) <> 251.
Definition attr_ok (a : connect_attr) : Prop := str_ok (at_key a) /\ str_ok (at_value a).
(** the attribute block *)
Definition attrs_wire (l : list connect_attr) : bytes :=
  flat_map (fun a => wlstr (at_key a) ++ wlstr (at_value a)) l.
(** the strings of a login packet are representable *)
Definition login_ok (r : handshake_response) : Prop :=
  hr_cap r < 2 ^ 32 /\ hr_max_packet r < 2 ^ 32 /\ hr_charset r < 2 ^ 8 /\
  no_nul (hr_username r) /\ no_nul (hr_database r) /\ no_nul (hr_plugin r) /\
  str_ok (hr_auth r) /\ Forall attr_ok (hr_attrs r) /\ str_ok (attrs_wire (hr_attrs r)).

(** a greeting of a server with pluggable authentication, as [greeting_wire] encodes it *)
Definition greeting_ok (version : bytes) (conn_id : N) (seed_1 : bytes) (cap charset status auth_len : N)
    (seed_2 plugin : bytes) : Prop :=
  no_nul version /\ conn_id < 2 ^ 32 /\ length seed_1 = 8%nat /\ cap < 2 ^ 32 /\ charset < 2 ^ 8 /\
  status < 2 ^ 16 /\ 8 <= auth_len < 2 ^ 8 /\ N.of_nat (length seed_2) = N.max 13 (auth_len - 8) /\
  cap_secure_connection cap = true /\ cap_plugin_auth cap = true.

(** the capabilities a login announces: LONG_PASSWORD, PROTOCOL_41, TRANSACTIONS,
    SECURE_CONNECTION, MULTI_RESULTS, PLUGIN_AUTH, PLUGIN_AUTH_LENENC_CLIENT_DATA,
    DEPRECATE_EOF and, with a database, CONNECT_WITH_DB *)
Definition client_caps (db : bytes) : N :=
  2 ^ 0 + 2 ^ 9 + 2 ^ 13 + 2 ^ 15 + 2 ^ 17 + 2 ^ 19 + 2 ^ 21 + 2 ^ 24 + match db with [] => 0 | _ => 2 ^ 3 end.
