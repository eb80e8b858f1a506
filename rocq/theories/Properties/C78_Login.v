(** * C78: what a login and a change of user report is exactly what the server's bytes say.  The output is accepted; the packet number wraps
      around silently, as in a release build, while the lengths in the greeting are computed with checks, as in a debug build. *)
From Coq Require Import Strings.String.
From Coq Require Import List NArith ZArith Lia Arith Bool.
From Verif Require Import Model.Base Model.BytesParser Model.Conn Model.Packet Model.Auth Model.Cmd Model.Session
  Spec.Nums Spec.LenEncSpec Spec.Wire Spec.Packets Spec.Framing Spec.Programs Spec.HostileExact Spec.Accepts Spec.Verdicts
  Proofs.BaseLemmas Proofs.ConnProofs Proofs.AcceptsProofs Proofs.AcceptsPackets Proofs.VerdictsProofs Proofs.VerdictsLogin Properties.C78_Verdicts.
Import ListNotations.
Open Scope N_scope.

(** a login, for any digests *)
Theorem C78_login : forall sha1 sha256 opts c, accepting (c_ws c) ->
  reports (handshake sha1 sha256 false opts) c (login_reply (c_cap c) (o_password opts)).
Proof. intros. apply login_reports. assumption. Qed.
Print Assumptions C78_login.
(** in particular, the server's reason for refusing a login never reaches the application as such *)
Theorem C78_login_refusal_lost : forall sha1 sha256 opts c code marker state message, accepting (c_ws c) ->
  fst (handshake sha1 sha256 false opts c) <> Err (ESql code marker state message).
Proof.
  intros sha1 sha256 opts c code marker state message Ac E.
  destruct (proj1 (C78_login sha1 sha256 opts c Ac (Refused code marker state message) _) (conj E eq_refl)) as (ms & w & _ & _ & X & _). discriminate X.
Qed.
Print Assumptions C78_login_refusal_lost.
(** a change of user *)
Theorem C78_change_user : forall sha1 sha256 user password db attrs c, accepting (c_ws c) ->
  reports (conn_change_user sha1 sha256 false user password db attrs) c (user_reply (c_cap c) password).
Proof. intros. apply change_user_reports. assumption. Qed.
Print Assumptions C78_change_user.

(** *** Examples: a login whose password the server remembers; a change of user with two methods, refused *)
Definition ex_greeting : bytes :=
  [x0a] ++ str "8.0" ++ [x00; x01; x00; x00; x00] ++ str "abcdefgh" ++ [x00; xff; xff; x21; x02; x00; xff; xff; x15] ++ repeat x00 10 ++ str "ijklmnopqrst" ++ [x00] ++
  str "caching_sha2_password" ++ [x00].
Definition ex_ok : bytes := [x00; x00; x00; x02; x00; x00; x00].
Example C78_login_example : forall sha1 sha256,
  let c := mk_conn [RData (framed x00 ex_greeting ++ framed x02 [x01; x03] ++ framed x03 ex_ok ++ [x07])] [] [] 0 0 0 in
  let r := handshake sha1 sha256 false (mk_opts (str "me") (str "secret") []) c in
  fst r = Ok tt /\ arriving (snd r) = [x07].
Proof.
  intros sha1 sha256 c r. apply (C78_login sha1 sha256 (mk_opts (str "me") (str "secret") []) c I (Done tt) [x07]).
  exists [ex_greeting; [x01; x03]; ex_ok], (framed x00 ex_greeting ++ framed x02 [x01; x03] ++ framed x03 ex_ok). split.
  { apply (wire_join [ex_greeting]); [apply framed_wire; vm_compute; lia|]. apply (wire_join [[x01; x03]]); [apply framed_wire; cbn; lia|]. apply framed_wire. cbn. lia. }
  split; [unfold c, arriving; cbn [c_rd delivered app]; rewrite app_nil_r, <- !app_assoc; reflexivity|]. split; [reflexivity|].
  destruct (fst (read_initial_handshake ex_greeting)) as [hs| | |] eqn:E; [|vm_compute in E; discriminate..].
  exists ex_greeting, hs, [[x01; x03]], ex_ok. split; [reflexivity|]. split; [apply (tm_of _ _ accepts_greeting), E|]. split.
  - right. vm_compute in E. injection E as <-. split; [reflexivity|]. split; [discriminate|]. right. exists []. reflexivity.
  - exists 0x200. split; [reflexivity|]. split; [reflexivity|]. split; [eexists; reflexivity|]. exists (mk_ok 0 0 0 2 0 [] []). apply (accepts_ok 0x200). vm_compute. reflexivity.
Qed.
Definition ex_switch (name : string) : bytes := xfe :: str name ++ x00 :: str "12345678901234567890".
Example C78_change_user_example : forall sha1 sha256,
  let c := mk_conn [RData (framed x01 (ex_switch "caching_sha2_password") ++ framed x03 (ex_switch "mysql_native_password") ++
                           framed x05 ([xff; x15; x04] ++ str "#28000denied"))] [] [] 0x200 0 0 in
  fst (conn_change_user sha1 sha256 false (str "you") (str "secret") [] [] c) = Err (ESql 1045 x23 (str "28000") (str "denied")).
Proof.
  intros sha1 sha256 c. apply (C78_change_user sha1 sha256 (str "you") (str "secret") [] [] c I (Refused 1045 x23 (str "28000") (str "denied")) []).
  set (a := ex_switch "caching_sha2_password"). set (b := ex_switch "mysql_native_password"). set (e := [xff; x15; x04] ++ str "#28000denied").
  exists [a; b; e], (framed x01 a ++ framed x03 b ++ framed x05 e). split.
  { apply (wire_join [a]); [apply framed_wire; cbn; lia|]. apply (wire_join [b]); [apply framed_wire; cbn; lia|]. apply framed_wire. cbn. lia. }
  split; [unfold c, arriving; cbn [c_rd delivered app]; rewrite !app_nil_r; reflexivity|].
  exists [[a]; [b]], e. split; [reflexivity|]. split.
  - constructor; [|constructor; [|constructor]].
    + exists (mk_switch 0xfe (str "caching_sha2_password") (str "12345678901234567890")), a, []. split; [reflexivity|]. split; [apply accepts_switch; vm_compute; reflexivity|].
      right. split; [reflexivity|]. split; [discriminate|]. left. reflexivity.
    + exists (mk_switch 0xfe (str "mysql_native_password") (str "12345678901234567890")), b, []. split; [reflexivity|]. split; [apply accepts_switch; vm_compute; reflexivity|].
      left. split; [left; reflexivity|]. constructor.
  - right. exists (mk_err 0xff 1045 0x23 (str "28000") (str "denied")), e. split; [reflexivity|]. split; [eexists; reflexivity|]. split; [apply (accepts_err 0x200 true); vm_compute; reflexivity|].
    repeat split; reflexivity.
Qed.
