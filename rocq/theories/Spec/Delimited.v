(** * Independent specification: which strings survive being sent

    A string sent with a length in front or with a NUL byte behind reaches the
    server only if the delimiter can express it.  What a request or a login is
    meant to say, and the conditions on its strings, are stated here from the
    protocol documentation. *)
From Coq Require Import List NArith ZArith Arith Bool.
From Verif Require Import Model.Base Model.Packet Model.Cmd Spec.Wire Spec.Packets Spec.Commands.
Import ListNotations.
Open Scope N_scope.

(** not a length the library writes as the NULL marker (see C03) *)
Definition not_251 (s : bytes) : Prop := N.of_nat (length s) <> 251.

(** connection attributes: no key, no value and no block of 251 bytes *)
Definition attrs_sendable (l : list connect_attr) : Prop :=
  Forall (fun a => not_251 (at_key a) /\ not_251 (at_value a)) l /\ not_251 (attrs_wire l).

(** the login a response stands for *)
Definition login_meant (r : handshake_response) : login :=
  mk_login (hr_cap r) (hr_max_packet r) (hr_charset r) (hr_username r) (hr_auth r)
    (if cap_connect_with_db (hr_cap r) then Some (hr_database r) else None)
    (if cap_plugin_auth (hr_cap r) then Some (hr_plugin r) else None)
    (if cap_connect_attrs (hr_cap r) then Some (map (fun a => (at_key a, at_value a)) (hr_attrs r)) else None).

(** the authentication data: by the way the capabilities make the server read it *)
Definition auth_sendable (cap : N) (auth : bytes) : Prop :=
  if cap_lenenc_auth cap then not_251 auth
  else if cap_secure_connection cap then N.of_nat (length auth) <= 251
  else auth = [].

(** the strings of a login can be sent *)
Definition login_sendable (r : handshake_response) : Prop :=
  no_nul (hr_username r) /\ auth_sendable (hr_cap r) (hr_auth r) /\
  (cap_connect_with_db (hr_cap r) = true -> no_nul (hr_database r)) /\
  (cap_plugin_auth (hr_cap r) = true -> no_nul (hr_plugin r)) /\
  (cap_connect_attrs (hr_cap r) = true -> attrs_sendable (hr_attrs r)).

(** the request a change of user stands for, and when its strings can be sent *)
Definition change_user_meant (cap : N) (c : change_user) : request :=
  RqChangeUser (cu_user c) (cu_auth c) (cu_schema c) (cu_charset c)
    (if cap_plugin_auth cap then Some (cu_plugin c) else None)
    (if cap_connect_attrs cap then Some (map (fun a => (at_key a, at_value a)) (cu_attrs c)) else None).
Definition change_user_sendable (cap : N) (c : change_user) : Prop :=
  no_nul (cu_user c) /\
  (if cap_secure_connection cap then N.of_nat (length (cu_auth c)) < 256 else no_nul (cu_auth c)) /\
  no_nul (cu_schema c) /\
  (cap_plugin_auth cap = true -> no_nul (cu_plugin c)) /\
  (cap_connect_attrs cap = true -> attrs_sendable (cu_attrs c)).
