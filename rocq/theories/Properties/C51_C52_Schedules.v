(** * C51, C52: results depend on the bytes that arrive, not on how they arrive; a lost connection is noticed *)
From Coq Require Import List NArith ZArith Lia Arith Bool.
From Verif Require Import Model.Base Model.Conn Model.Flags Model.Packet Model.Auth Model.Cmd Model.Col Model.Stmt Model.Extract
  Model.Session Model.Event Model.Stream Model.MyBinlog Spec.Framing Spec.Programs Proofs.ConnProofs Proofs.ScheduleProofs
  Proofs.DmlScheduleProofs.
Import ListNotations.
Open Scope N_scope.

(** Take any program and any two connections that differ only in the portions and the waiting with which
    the transport hands over the same bytes and takes what is written.  Both runs give the same result, send
    the same bytes and leave the connection in the same state; the same bytes remain unread, unless the
    connection was lost in the middle of a message, and then it was lost in both. *)
Theorem C51_chunking : forall sha1 sha256 crc checks A (m : io A) c1 c2,
  program sha1 sha256 crc checks m -> alike c1 c2 -> arriving c1 = arriving c2 ->
  fst (m c1) = fst (m c2) /\ alike (snd (m c1)) (snd (m c2)) /\
  (fst (m c1) = Err EIO \/ arriving (snd (m c1)) = arriving (snd (m c2))).
Proof.
  intros sha1 sha256 crc checks A m c1 c2 P Al E.
  destruct (program_steady sha1 sha256 crc checks m P [] c1 c2) as [(H1 & H2 & H3)|(H1 & _ & H2)].
  - split; [exact Al|]. rewrite app_nil_r. symmetry. exact E.
  - rewrite app_nil_r in H3. auto.
  - destruct (H2 eq_refl) as [H3 H4]. split; [congruence|]. split; [exact H4|]. left. exact H1.
Qed.
Print Assumptions C51_chunking.
(** In particular a run can be compared with the one where everything arrives at once and is taken at once *)
Theorem C51_reference : forall sha1 sha256 crc checks A (m : io A) c,
  program sha1 sha256 crc checks m -> accepting (c_ws c) ->
  let c0 := mk_conn [RData (arriving c)] [] (c_out c) (c_cap c) (c_status c) (c_pkt_nr c) in
  fst (m c) = fst (m c0) /\ c_out (snd (m c)) = c_out (snd (m c0)) /\ c_cap (snd (m c)) = c_cap (snd (m c0)) /\
  c_status (snd (m c)) = c_status (snd (m c0)) /\ c_pkt_nr (snd (m c)) = c_pkt_nr (snd (m c0)).
Proof.
  intros sha1 sha256 crc checks A m c P Ac c0.
  destruct (C51_chunking sha1 sha256 crc checks A m c c0 P) as (H1 & (E1 & E2 & E3 & E4 & _) & _).
  - unfold alike. subst c0. cbn. auto 10.
  - subst c0. unfold arriving at 2. cbn [c_rd delivered]. destruct (arriving c); [reflexivity|]. symmetry. apply app_nil_r.
  - auto.
Qed.
Print Assumptions C51_reference.

(** The command that prints a binlog as statements reads from two connections: the lines it prints and its
    success depend only on the bytes that arrive on them *)
Theorem C51_dml : forall f32 f64 crc checks o uuid id filename nb c1 c2 h1 h2,
  alike c1 c2 -> arriving c1 = arriving c2 -> alike h1 h2 -> arriving h1 = arriving h2 ->
  fst (fst (print_dmls f32 f64 crc checks o uuid id filename nb c1 h1)) =
  fst (fst (print_dmls f32 f64 crc checks o uuid id filename nb c2 h2)).
Proof.
  intros f32 f64 crc checks o uuid id filename nb c1 c2 h1 h2 A1 E1 A2 E2.
  pose proof (print_dmls_agree f32 f64 crc checks o uuid id filename nb [] [] c1 c2 h1 h2) as H.
  unfold follows, agree2, result, printed in H. rewrite !app_nil_r in H. specialize (H (conj A1 (eq_sym E1)) (conj A2 (eq_sym E2))).
  destruct (print_dmls _ _ _ _ _ _ _ _ _ c1 h1) as [[[r1 p1] ?] ?], (print_dmls _ _ _ _ _ _ _ _ _ c2 h2) as [[[r2 p2] ?] ?]. cbn [fst snd] in *.
  destruct H as [[-> ->]|(-> & _ & K)]; [reflexivity|]. destruct (K eq_refl eq_refl) as [-> ->]. reflexivity.
Qed.
Print Assumptions C51_dml.

(** Let the connection be lost at any point of what the server sends: [arriving c1] is what arrives before, and
    [arriving c2] what would have arrived.  Then a program either reports the lost connection or finished before
    with the very result, output and state it would have had. *)
Theorem C52_cut : forall sha1 sha256 crc checks A (m : io A) c1 c2 lost,
  program sha1 sha256 crc checks m -> alike c1 c2 -> arriving c2 = arriving c1 ++ lost ->
  fst (m c1) = Err EIO \/
  (fst (m c1) = fst (m c2) /\ alike (snd (m c1)) (snd (m c2)) /\ arriving (snd (m c2)) = arriving (snd (m c1)) ++ lost).
Proof.
  intros sha1 sha256 crc checks A m c1 c2 lost P Al E.
  destruct (program_steady sha1 sha256 crc checks m P lost c1 c2 (conj Al E)) as [H|(H & _)]; auto.
Qed.
Print Assumptions C52_cut.

(** When one or both of its connections are lost, the printing command reports it, or had finished before; what it
    printed is the beginning of what it would have printed *)
Theorem C52_dml : forall f32 f64 crc checks o uuid id filename nb c1 c2 h1 h2 lost1 lost2,
  alike c1 c2 -> arriving c2 = arriving c1 ++ lost1 -> alike h1 h2 -> arriving h2 = arriving h1 ++ lost2 ->
  let '(r1, out1, _, _) := print_dmls f32 f64 crc checks o uuid id filename nb c1 h1 in
  let '(r2, out2, _, _) := print_dmls f32 f64 crc checks o uuid id filename nb c2 h2 in
  (r1 = r2 /\ out1 = out2) \/ (r1 = Err EIO /\ exists more, out2 = out1 ++ more).
Proof.
  intros f32 f64 crc checks o uuid id filename nb c1 c2 h1 h2 l1 l2 A1 E1 A2 E2.
  pose proof (print_dmls_agree f32 f64 crc checks o uuid id filename nb l1 l2 c1 c2 h1 h2 (conj A1 E1) (conj A2 E2)) as H.
  destruct (print_dmls _ _ _ _ _ _ _ _ _ c1 h1) as [[[r1 p1] ?] ?], (print_dmls _ _ _ _ _ _ _ _ _ c2 h2) as [[[r2 p2] ?] ?].
  unfold agree2, result, printed in H. cbn [fst snd] in H. destruct H as [H|(H1 & H2 & _)]; auto.
Qed.
Print Assumptions C52_dml.

(** ** Non-vacuity: a ping and a query after it; the answers arrive byte by byte with waiting, at once, or not at all *)
Definition example_answer : bytes := [x07; x00; x00; x01; x00; x00; x00; x02; x00; x00; x00].
Definition example_ping (more : list rpoll) : conn := mk_conn more [WPending; WAccept 1] [] 0x200 2 0.
Definition bytewise : list rpoll := flat_map (fun b => [RPending; RData [b]]) (example_answer ++ example_answer).
Definition example_program : io unit := _ <~ conn_ping true ;; query_exec true [x73].
Example C51_example : forall sha1 sha256 crc,
  program sha1 sha256 crc true example_program /\
  alike (example_ping bytewise) (example_ping [RData (example_answer ++ example_answer)]) /\
  arriving (example_ping bytewise) = arriving (example_ping [RData (example_answer ++ example_answer)]) /\
  fst (example_program (example_ping bytewise)) = Ok tt.
Proof.
  intros. split; [|split; [|split]].
  - apply pg_bind; [apply pg_ping|intros; apply pg_exec].
  - cbn. unfold alike. cbn. auto 20.
  - reflexivity.
  - vm_compute. reflexivity.
Qed.
Example C52_example : forall n, (n < 22)%nat ->
  alike (example_ping [RData (firstn n (example_answer ++ example_answer))]) (example_ping bytewise) /\
  fst (example_program (example_ping [RData (firstn n (example_answer ++ example_answer))])) = Err EIO.
Proof.
  intros n H. split; [unfold alike; cbn; auto 20|]. do 22 (destruct n as [|n]; [vm_compute; reflexivity|]). lia.
Qed.
