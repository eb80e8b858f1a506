(** C75: the replies of a server are taken exactly for what the protocol's layout says.
    [takes_exactly], [takes_message] and the layouts are in Spec/Accepts.v *)
From Coq Require Import List NArith Lia Bool.
From Verif Require Import Model.Base Model.BytesParser Model.LenEnc Model.Utf8 Model.Flags Model.Packet Model.Time Model.Bitmap
  Model.Col Model.Row Model.Stmt Model.Session
  Spec.Nums Spec.LenEncSpec Spec.Packets Spec.BitmapSpec Spec.Values Spec.Accepts
  Proofs.AcceptsProofs Proofs.AcceptsPackets Proofs.AcceptsRows.
Import ListNotations.
Open Scope N_scope.

(** length encoded integers and strings *)
Theorem C75_length_encoded : takes_exactly read_len_enc_int lei_layout /\ takes_exactly read_len_enc_str les_layout.
Proof. split; [exact te_lei|exact te_les]. Qed.
Print Assumptions C75_length_encoded.
(** one frame *)
Theorem C75_packet : takes_exactly read_packet packet_layout.
Proof. exact accepts_packet. Qed.
Print Assumptions C75_packet.
(** the greeting *)
Theorem C75_greeting : takes_exactly read_initial_handshake greeting_layout.
Proof. exact accepts_greeting. Qed.
Print Assumptions C75_greeting.
(** OK, error and end-of-data messages, under any capabilities *)
Theorem C75_ok_err_eof : forall cap,
  takes_message (read_ok_packet cap) (ok_layout cap) /\
  (forall sql, takes_message (read_err_packet cap sql) (err_layout cap sql)) /\
  takes_exactly (read_eof_packet cap) (eof_layout cap).
Proof. intros cap. split; [apply accepts_ok|]. split; [apply accepts_err|apply accepts_eof]. Qed.
Print Assumptions C75_ok_err_eof.
(** what may answer a login *)
Theorem C75_login_reply : forall cap, takes_message (read_handshake_message cap) (handshake_message_layout cap).
Proof. exact accepts_handshake_message. Qed.
Print Assumptions C75_login_reply.
(** what may answer a command, a change of user, a field list, a debug request, an option *)
Theorem C75_command_replies : forall cap,
  takes_message (read_com_response cap) (com_response_layout cap) /\
  takes_message (read_change_user_response cap) (change_user_layout cap) /\
  (forall sql, takes_message (read_field_list_response cap sql) (field_list_layout cap sql)) /\
  takes_message (read_debug_response cap) (debug_layout cap) /\
  takes_message (read_set_option_response cap) (set_option_layout cap).
Proof.
  intros cap. split; [apply accepts_com_response|]. split; [apply accepts_change_user|]. split; [apply accepts_field_list|].
  split; [apply accepts_debug|apply accepts_set_option].
Qed.
Print Assumptions C75_command_replies.
(** column definitions, with and without a default value, and the head of a prepared statement *)
Theorem C75_definitions : (forall with_default, takes_exactly (read_column_def with_default) (coldef_layout with_default)) /\
  takes_exactly read_stmt_prepare_ok prepare_ok_layout.
Proof. split; [exact accepts_column_def|exact accepts_prepare_ok]. Qed.
Print Assumptions C75_definitions.
(** a text row of [n] columns *)
Theorem C75_text_row : forall n, takes_exactly (read_text_row n) (text_row_layout n).
Proof. exact accepts_text_row. Qed.
Print Assumptions C75_text_row.
(** a value and a row of the binary protocol *)
Theorem C75_binary_row : (forall ct, takes_exactly (read_binary_value ct) (binary_value_layout ct)) /\
  (forall cts, takes_exactly (read_binary_row cts) (binary_row_layout cts)).
Proof. split; [exact accepts_binary_value|exact accepts_binary_row]. Qed.
Print Assumptions C75_binary_row.

(** a layout has at most one reading, and what is read can be continued: for every such reader *)
Theorem C75_one_reading : forall A (p : parser A) (layout : A -> bytes -> Prop), takes_exactly p layout ->
  forall v1 v2 w1 w2 r1 r2, layout v1 w1 -> layout v2 w2 -> w1 ++ r1 = w2 ++ r2 -> v1 = v2 /\ w1 = w2 /\ r1 = r2.
Proof.
  intros A p layout P v1 v2 w1 w2 r1 r2 H1 H2 E.
  assert (X1 : p (w1 ++ r1) = (Ok v1, r1)) by (apply P; eauto).
  assert (X2 : p (w1 ++ r1) = (Ok v2, r2)) by (apply P; eauto).
  rewrite X1 in X2. injection X2 as -> ->. apply app_inv_tail in E. auto.
Qed.
Print Assumptions C75_one_reading.

(** an OK message; the same with a status bit nobody defined is refused; so is one cut short *)
Example C75_ok_taken : com_response_layout PROTOCOL_41 (CrOk (mk_ok 0 3 0 2 0 [x68; x69] [])) [x00; x03; x00; x02; x00; x00; x00; x68; x69].
Proof. apply accepts_com_response. vm_compute. reflexivity. Qed.
Example C75_ok_refused : forall v, ~ com_response_layout PROTOCOL_41 v [x00; x03; x00; x02; x80; x00; x00; x68; x69].
Proof. intros v H. apply accepts_com_response in H. vm_compute in H. discriminate. Qed.
Example C75_ok_short : forall v, ~ com_response_layout PROTOCOL_41 v [x00; x03; x00; x02].
Proof. intros v H. apply accepts_com_response in H. vm_compute in H. discriminate. Qed.
(** a row of a tiny integer, a NULL and a string, followed by other bytes *)
Example C75_row_taken : exists w, [x00; x08; x07; x02; x68; x69; xaa] = w ++ [xaa] /\
  binary_row_layout [TTiny; TLong; TVarString] [BTiny 7; BNull; BVarString [x68; x69]] w.
Proof. apply accepts_binary_row. vm_compute. reflexivity. Qed.
(** a time of a length other than 0, 8 and 12 is refused *)
Example C75_time_refused : forall v w, ~ binary_value_layout TTime v (x05 :: w).
Proof.
  intros v w H. assert (X : read_binary_value TTime (x05 :: w ++ []) = (Ok v, [])).
  { apply (accepts_binary_value TTime). exists (x05 :: w). split; [reflexivity|exact H]. }
  discriminate X.
Qed.
