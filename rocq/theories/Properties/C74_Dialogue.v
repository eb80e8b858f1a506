(** C74: the client's side of the conversation.  [converses], [app_said], [login_said] and [said_by] are in Spec/Dialogue.v *)
From Coq Require Import Strings.String.
From Coq Require Import List NArith ZArith Lia Bool.
From Verif Require Import Model.Base Model.Conn Model.Auth Model.Packet Model.Cmd Model.Col Model.Stmt Model.Session Model.Tools Spec.Framing Spec.Packets Spec.Commands Spec.Programs Spec.Dialogue
  Proofs.DialogueProofs.
From Verif Require Proofs.ConnProofs Proofs.HostileProofs.
Import ListNotations.
Open Scope N_scope.

(** whatever the server sends, however it is split and wherever it ends: the client says what its calls stand for and nothing else *)
Theorem C74_application : forall sha1 sha256 crc checks cap, (forall x, length (sha1 x) = 20%nat) -> (forall x, length (sha256 x) = 32%nat) ->
  forall A (m : app A) c, c_cap c = cap -> accepting (c_ws c) ->
  converses cap checks (app_said sha1 sha256 cap m) (app_begins sha1 sha256 cap m) (run_app sha1 sha256 crc checks m) c.
Proof. intros sha1 sha256 crc checks cap H1 H2 A m c <- Ha. apply talks_converses. apply talks_app; auto. Qed.
Print Assumptions C74_application.

(** the login: one login packet naming the user, then answers that prove the password is known *)
Theorem C74_login : forall sha1 sha256 checks, (forall x, length (sha1 x) = 20%nat) -> (forall x, length (sha256 x) = 32%nat) ->
  forall user pw db c, c_cap c = 0 -> accepting (c_ws c) ->
  converses (client_caps db) checks (login_said sha1 sha256 user pw db) (fun us => us = [] \/ login_said sha1 sha256 user pw db us)
    (handshake sha1 sha256 checks (mk_opts user pw db)) c.
Proof. intros sha1 sha256 checks H1 H2 user pw db c C0 Ha. eapply to_converses. apply (talks_login sha1 sha256 H1 H2 (client_caps db) (fun _ => 0) checks); assumption. Qed.
Print Assumptions C74_login.

(** both together, on a new connection *)
Theorem C74_session : forall sha1 sha256 crc checks, (forall x, length (sha1 x) = 20%nat) -> (forall x, length (sha256 x) = 32%nat) ->
  forall user pw db A (m : app A) rd ws, accepting ws ->
  converses (client_caps db) checks
    (fun us => exists u1 u2, login_said sha1 sha256 user pw db u1 /\ app_said sha1 sha256 (client_caps db) m u2 /\ us = u1 ++ u2)
    (fun us => us = [] \/ login_said sha1 sha256 user pw db us \/
       exists u1 u2, login_said sha1 sha256 user pw db u1 /\ app_begins sha1 sha256 (client_caps db) m u2 /\ us = u1 ++ u2)
    (_ <~ handshake sha1 sha256 checks (mk_opts user pw db) ;; run_app sha1 sha256 crc checks m) (conn_new (rd, ws)).
Proof.
  intros sha1 sha256 crc checks H1 H2 user pw db A m rd ws Ha. eapply to_converses.
  eapply (to_bind (client_caps db) checks); [apply (talks_login sha1 sha256 H1 H2 (client_caps db) crc checks user pw db); [exact Ha|reflexivity]| |].
  - intros us [H|H]; auto.
  - intros u d us1 st1 L Ha' K. eapply talks_imp; [| |apply talks_app; [exact H1|exact H2|exact Ha'|exact K]].
    + intros us S. exists us1, us. auto.
    + intros us S. right. right. exists us1, us. auto.
Qed.
Print Assumptions C74_session.

(** Without a change of user, every message of the client is a command numbered from 0.  Nothing the server sends is answered otherwise:
    no file is sent for a LOAD DATA request, no password for an authentication request. *)
Theorem C74_no_answers : forall sha1 sha256 crc checks cap, (forall x, length (sha1 x) = 20%nat) -> (forall x, length (sha256 x) = 32%nat) ->
  forall A (m : app A) c, asks_only m -> c_cap c = cap -> accepting (c_ws c) ->
  converses cap checks (fun us => app_said sha1 sha256 cap m us /\ exists qs, us = map Asked qs)
    (fun us => exists qs, us = map Asked qs) (run_app sha1 sha256 crc checks m) c.
Proof.
  intros sha1 sha256 crc checks cap H1 H2 A m c Hm <- Ha. pose proof (C74_application sha1 sha256 crc checks (c_cap c) H1 H2 A m c eq_refl Ha) as H.
  unfold converses in *. destruct (run_app sha1 sha256 crc checks m c) as [r c']. destruct H as (h & us & s & st & cut & rest & D & R & E & X & O & C).
  pose proof (app_asked sha1 sha256 (c_cap c) m Hm) as Q. exists h, us, s, st, cut, rest. split; [exact D|].
  split; [destruct r; [split; [exact R|exact (proj1 (Q us) R)]|exact (proj2 (Q us) R)..]|]. split; [exact E|]. split; [exact X|]. split; [exact O|].
  destruct C as [C|(C1 & C2 & u & w & more & C3 & C4)]; [auto|]. right. split; [exact C1|]. split; [exact C2|]. exists u, w, more. split; [exact (proj2 (Q _) C3)|exact C4].
Qed.
Print Assumptions C74_no_answers.

(** a query is one message, numbered from 0, whatever the answer: read by the server it is that query *)
Theorem C74_query : forall checks sql c, N.of_nat (length sql) < 2 ^ 24 - 2 -> accepting (c_ws c) ->
  exists seqs w, c_out (snd (query_exec checks sql c)) = c_out c ++ w /\ message_wire seqs (x03 :: sql) w /\ consecutive 0 seqs.
Proof.
  intros checks sql c Hl Ha. unfold query_exec, ibind.
  destruct (ConnProofs.send_msg_spec checks c (write_query sql) true Ha ltac:(reflexivity)) as (seqs & w & d & E & W & O & Q & _).
  { right. rewrite HostileProofs.one_packet; [cbv; discriminate|]. change (full) with 16777215. unfold blen. change (length (write_query sql)) with (S (length sql)).
    change (2 ^ 24 - 2) with 16777214 in Hl. lia. }
  rewrite E. destruct (listens_query_loop (S (sched_len (c_rd d))) d) as (_ & _ & _ & _ & _ & _ & O2 & _). exists seqs, w. rewrite O2. auto.
Qed.
Print Assumptions C74_query.

(** ** A case: a connection that is asked to send a file, and an application that goes on *)
Definition ex_c74_app : app bytes :=
  AThen (ATry (ACall (CExec (str "LOAD DATA LOCAL INFILE 'a' INTO TABLE t")))) (fun r =>
  AThen (ACall CPing) (fun _ => ADone (match r with Ok _ => Ok [] | _ => Ok [x65] end))).
Definition ex_c74_conn : conn :=
  mk_conn [RData [x0a; x00; x00]; RPending; RData ([x01; xfb] ++ str "/etc/host" ++ [x09; x00; x00; x02; xff; x01; x04; x23; x48; x59; x30; x30; x30]);
           RData [x07; x00; x00; x01; x00; x00; x00; x02; x00; x00; x00]] [WAccept 3; WPending] [] 0x200 0 0.
Example C74_ex_run : forall sha1 sha256 crc, fst (run_app sha1 sha256 crc true ex_c74_app ex_c74_conn) = Ok [x65].
Proof. intros. vm_compute. reflexivity. Qed.
Example C74_ex_sent : forall sha1 sha256 crc, c_out (snd (run_app sha1 sha256 crc true ex_c74_app ex_c74_conn)) =
  [x28; x00; x00; x00; x03] ++ str "LOAD DATA LOCAL INFILE 'a' INTO TABLE t" ++ [x01; x00; x00; x00; x0e].
Proof. intros. vm_compute. reflexivity. Qed.
Example C74_ex_accepting : accepting (c_ws ex_c74_conn) /\ asks_only ex_c74_app.
Proof. split; [cbn; auto|cbn; auto]. Qed.
(** and one that authenticates again: the answer is numbered on from the request of the server *)
Definition ex_c74_sha1 (x : bytes) : bytes := firstn 20 (x ++ repeat x00 20).
Definition ex_c74_sha256 (x : bytes) : bytes := firstn 32 (x ++ repeat x00 32).
Definition ex_c74_switch : bytes := [xfe] ++ str "mysql_native_password" ++ [x00] ++ repeat x11 20 ++ [x00].
Example C74_ex_user : forall crc, let '(r, c) := run_app ex_c74_sha1 ex_c74_sha256 crc true
    (AThen (ACall (CChangeUser (str "bob") (str "pw") (str "db") [])) (fun _ => ACall CQuit))
    (mk_conn [RData ([n2b (blen ex_c74_switch); x00; x00; x01] ++ ex_c74_switch); RData [x07; x00; x00; x03; x00; x00; x00; x02; x00; x00; x00]] [] [] (client_caps []) 0 0) in
  r = Ok tt /\ exists question answer, c_out c = [x21; x00; x00; x00; x11] ++ question ++ [x14; x00; x00; x02] ++ answer ++ [x01; x00; x00; x00; x01] /\
    length question = 32%nat /\ length answer = 20%nat.
Proof.
  intros crc. vm_compute. split; [reflexivity|].
  match goal with |- exists q a, ?o = _ /\ _ => exists (firstn 32 (skipn 5 o)), (firstn 20 (skipn 41 o)) end. split; [reflexivity|]. split; reflexivity.
Qed.
Example C74_ex_digests : (forall x, length (ex_c74_sha1 x) = 20%nat) /\ (forall x, length (ex_c74_sha256 x) = 32%nat).
Proof. split; intros x; unfold ex_c74_sha1, ex_c74_sha256; rewrite firstn_length, app_length, repeat_length; lia. Qed.
