(** * C13, C16, C18: exactly which strings reach the server

    The earlier theorems of these properties give sufficient conditions and
    witnesses for the exceptions.  Here the conditions are exact: the server
    reads what was meant if and only if they hold. *)
From Coq Require Import Strings.String.
From Verif Require Import Model.Base Model.Auth Model.Packet Model.Cmd Spec.Wire Spec.Packets Spec.Commands Spec.Delimited
  Proofs.BaseLemmas Proofs.DelimitedProofs.
Import List ListNotations.
Open Scope N_scope.

(** ** C13: the login packet.  The last hypothesis leaves out logins that announce
    attributes but no length encoded authentication data; see the last example. *)
Theorem C13_login_exact : forall r, hr_cap r < 2 ^ 32 -> hr_max_packet r < 2 ^ 32 -> hr_charset r < 2 ^ 8 ->
  N.of_nat (length (hr_auth r)) < 2 ^ 64 -> N.of_nat (length (attrs_wire (hr_attrs r))) < 2 ^ 64 ->
  cap_lenenc_auth (hr_cap r) = true \/ cap_connect_attrs (hr_cap r) = false ->
  server_login (write_handshake_response r) = Some (login_meant r, []) <-> login_sendable r.
Proof. exact login_exact. Qed.
Print Assumptions C13_login_exact.

(** ** C16: listing the fields of a table *)
Theorem C16_field_list_exact : forall cap table wildcard,
  server_request cap (write_field_list table wildcard) = Some (RqFieldList table wildcard) <-> no_nul table.
Proof. exact field_list_exact. Qed.
Print Assumptions C16_field_list_exact.

(** ** C18: the commands with delimited strings *)
Theorem C18_register_slave_exact : forall cap server_id host user password port rank master_id,
  server_id < 2 ^ 32 -> port < 2 ^ 16 -> rank < 2 ^ 32 -> master_id < 2 ^ 32 ->
  server_request cap (write_register_slave (mk_rs server_id host user password port rank master_id))
  = Some (RqRegisterSlave server_id host user password port rank master_id) <->
  N.of_nat (length host) < 256 /\ N.of_nat (length user) < 256 /\ N.of_nat (length password) < 256.
Proof. exact register_slave_exact. Qed.
Print Assumptions C18_register_slave_exact.

Theorem C18_table_dump_exact : forall cap db table,
  server_request cap (write_table_dump db table) = Some (RqTableDump db table) <->
  N.of_nat (length db) < 256 /\ N.of_nat (length table) < 256.
Proof. exact table_dump_exact. Qed.
Print Assumptions C18_table_dump_exact.

Theorem C18_change_user_exact : forall cap c,
  cu_charset c < 2 ^ 16 -> N.of_nat (length (attrs_wire (cu_attrs c))) < 2 ^ 64 ->
  server_request cap (write_change_user cap c) = Some (change_user_meant cap c) <-> change_user_sendable cap c.
Proof. exact change_user_exact. Qed.
Print Assumptions C18_change_user_exact.

(** ** Concrete cases *)
(** a NUL byte in the database name: understood without a database, not with one *)
Example C13_exact_example :
  let r cap := mk_hr cap 0xffffff 33 [x72] (repeat x01 20) [x64; x00; x62] [x6d] [] in
  server_login (write_handshake_response (r 0x00280200)) = Some (login_meant (r 0x00280200), []) /\
  server_login (write_handshake_response (r 0x00280208)) <> Some (login_meant (r 0x00280208), []).
Proof.
  cbn zeta. split.
  - apply C13_login_exact; try reflexivity; [left; reflexivity|].
    unfold login_sendable, no_nul. repeat split; cbn; try discriminate; intuition discriminate.
  - rewrite C13_login_exact; try reflexivity; [|left; reflexivity].
    intros (_ & _ & H & _). specialize (H eq_refl). apply H. right. left. reflexivity.
Qed.
(** 251 bytes of authentication data: one byte for the length suffices, unless it is length encoded *)
Example C13_exact_251 :
  let r cap := mk_hr cap 0xffffff 33 [x72] (repeat x01 251) [] [] [] in
  server_login (write_handshake_response (r 0x00008200)) = Some (login_meant (r 0x00008200), []) /\
  server_login (write_handshake_response (r 0x00200200)) <> Some (login_meant (r 0x00200200), []).
Proof.
  cbn zeta. split.
  - apply C13_login_exact; try reflexivity; [right; reflexivity|].
    unfold login_sendable, no_nul. repeat split; cbn; try discriminate; intuition discriminate.
  - rewrite C13_login_exact; try reflexivity; [|left; reflexivity].
    intros (_ & H & _). apply H. reflexivity.
Qed.
(** why attributes without length encoded authentication data are left out: 252 bytes
    that repeat their own length are read as meant, by accident *)
Example C13_exact_accident :
  let r := mk_hr 0x00108200 0xffffff 33 [x72] (concat (repeat [xfc; x00] 126)) [] [] [] in
  server_login (write_handshake_response r) = Some (login_meant r, []) /\ ~ login_sendable r.
Proof. cbn zeta. split; [vm_compute; reflexivity|]. intros (_ & H & _). vm_compute in H. apply H. reflexivity. Qed.

Example C18_exact_example :
  server_request 0 (write_table_dump (str "db") (repeat x74 256)) <> Some (RqTableDump (str "db") (repeat x74 256)) /\
  server_request 0x00188000 (write_change_user 0x00188000 (new_change_user (str "u") (repeat x01 20) (str "db") (str "p")
     [mk_attr (str "k") (repeat x76 251)]))
  <> Some (change_user_meant 0x00188000 (new_change_user (str "u") (repeat x01 20) (str "db") (str "p")
     [mk_attr (str "k") (repeat x76 251)])) /\
  server_request 0x00088000 (write_change_user 0x00088000 (new_change_user (str "u") (repeat x01 255) (str "db") (str "p")
     [mk_attr (str "k") (repeat x76 251)]))
  = Some (change_user_meant 0x00088000 (new_change_user (str "u") (repeat x01 255) (str "db") (str "p")
     [mk_attr (str "k") (repeat x76 251)])) /\
  server_request 0 (write_field_list [x61; x00] []) <> Some (RqFieldList [x61; x00] []).
Proof.
  splits.
  - rewrite C18_table_dump_exact. intros [_ H]. discriminate H.
  - rewrite C18_change_user_exact; [|reflexivity|reflexivity].
    intros (_ & _ & _ & _ & H). specialize (H eq_refl). destruct H as [H _]. inversion H as [|a l [_ V] _ E]. apply V. reflexivity.
  - apply C18_change_user_exact; [reflexivity|reflexivity|].
    unfold change_user_sendable, no_nul. cbn [cu_user new_change_user cu_schema cu_plugin cu_auth].
    repeat split; try discriminate; try (cbn; intuition discriminate).
  - rewrite C16_field_list_exact. intros H. apply H. right. left. reflexivity.
Qed.
