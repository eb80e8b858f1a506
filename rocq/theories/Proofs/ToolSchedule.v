(** * The two programs under other schedules and lost connections *)
From Coq Require Import Strings.String.
From Coq Require Import List NArith ZArith Lia Arith Bool.
From Verif Require Import Model.Base Model.BytesParser Model.Conn Model.Auth Model.Session Model.Event Model.Stream Model.Transform Model.MyBinlog Model.Tools
  Spec.Framing Spec.Programs Spec.ToolSpec Proofs.ConnProofs Proofs.ScheduleProofs Proofs.DmlScheduleProofs.
Import ListNotations.
Open Scope N_scope.

Section Tools.
  Variables sha1 sha256 : bytes -> bytes.
  Variables fmt_f32 fmt_f64 : N -> bytes.
  Variable crc : bytes -> N.
  Variable checks : bool.
  Variable compile : bytes -> option (bytes -> bool).

  Lemma new_follows lost s1 s2 : fewer_bytes lost s1 s2 -> follows lost (conn_new s1) (conn_new s2).
  Proof. intros (D & A1 & A2). split; [repeat split; assumption|exact D]. Qed.
  Lemma connect_agree user pw lost s1 s2 : fewer_bytes lost s1 s2 -> exists c1 c2 r1 r2,
    connect sha1 sha256 checks user pw (Some s1) = (r1, Some c1) /\ connect sha1 sha256 checks user pw (Some s2) = (r2, Some c2) /\
    ((r1 = r2 /\ follows lost c1 c2) \/ (r1 = Err EIO /\ (lost = [] -> r2 = Err EIO))).
  Proof.
    intros F. apply new_follows in F. unfold connect.
    pose proof (steady_handshake sha1 sha256 checks (mk_opts user pw []) lost _ _ F) as H.
    destruct (handshake sha1 sha256 checks (mk_opts user pw []) (conn_new s1)) as [r1 c1], (handshake sha1 sha256 checks (mk_opts user pw []) (conn_new s2)) as [r2 c2].
    exists c1, c2, r1, r2. split; [reflexivity|]. split; [reflexivity|]. destruct H as [(H1 & H2 & H3)|(H1 & _ & H2)]; cbn [fst snd] in *.
    - left. split; [exact H1|split; assumption].
    - right. split; [exact H1|]. intros L. apply H2. exact L.
  Qed.
  Lemma list_agree user pw lost s1 s2 : fewer_bytes lost s1 s2 ->
    let x := fst (exec_list sha1 sha256 checks user pw (Some s1)) in
    let y := fst (exec_list sha1 sha256 checks user pw (Some s2)) in
    x = y \/ (x = Err EIO /\ (lost = [] -> y = Err EIO)).
  Proof.
    intros F. cbv zeta. unfold exec_list. destruct (connect_agree user pw lost s1 s2 F) as (c1 & c2 & r1 & r2 & -> & -> & [[<- G]|[-> G]]).
    - destruct r1; try (left; reflexivity). pose proof (steady_files checks lost _ _ G) as H.
      destruct (conn_binlog_files checks c1) as [x1 d1], (conn_binlog_files checks c2) as [x2 d2].
      destruct H as [(H1 & H2 & H3)|(H1 & _ & H2)]; cbn [fst snd] in *; [left; exact H1|right]. split; [exact H1|]. intros L. apply H2. exact L.
    - right. split; [reflexivity|]. intros L. rewrite (G L). reflexivity.
  Qed.

  Definition result3 (x : res unit * list bytes * option conn * option conn) : res unit := fst (fst (fst x)).
  Definition lines (x : res unit * list bytes * option conn * option conn) : list bytes := snd (fst (fst x)).
  Lemma dml_agree uuid id user pw filename un df tf block limit l1 l2 s1 s2 t1 t2 : fewer_bytes l1 s1 t1 -> fewer_bytes l2 s2 t2 ->
    let x := exec_dml sha1 sha256 fmt_f32 fmt_f64 crc checks compile uuid id user pw filename un df tf block limit (Some s1) (Some s2) in
    let y := exec_dml sha1 sha256 fmt_f32 fmt_f64 crc checks compile uuid id user pw filename un df tf block limit (Some t1) (Some t2) in
    (result3 x = result3 y /\ lines x = lines y) \/
    (result3 x = Err EIO /\ (exists more, lines y = lines x ++ more) /\ (l1 = [] -> l2 = [] -> result3 y = Err EIO /\ lines x = lines y)).
  Proof.
    intros F1 F2. cbv zeta. unfold exec_dml, result3, lines. destruct (connect_agree user pw l1 s1 t1 F1) as (c1 & c2 & r1 & r2 & -> & -> & [[<- G]|[-> G]]).
    2:{ right. split; [reflexivity|]. split; [eexists; reflexivity|]. intros L _. rewrite (G L). split; reflexivity. }
    destruct r1; try (left; split; reflexivity).
    destruct (connect_agree user pw l2 s2 t2 F2) as (h1 & h2 & r3 & r4 & -> & -> & [[<- K]|[-> K]]).
    2:{ right. split; [reflexivity|]. split; [eexists; reflexivity|]. intros _ L. rewrite (K L). split; reflexivity. }
    destruct r3; try (left; split; reflexivity).
    destruct (compile_opt compile df) as [p1| | |]; try (left; split; reflexivity).
    destruct (compile_opt compile tf) as [p2| | |]; try (left; split; reflexivity).
    pose proof (print_dmls_agree fmt_f32 fmt_f64 crc checks (mk_do un p1 p2 limit) uuid id filename (negb block) l1 l2 c1 c2 h1 h2 G K) as H.
    destruct (print_dmls fmt_f32 fmt_f64 crc checks (mk_do un p1 p2 limit) uuid id filename (negb block) c1 h1) as [[[x1 o1] d1] g1].
    destruct (print_dmls fmt_f32 fmt_f64 crc checks (mk_do un p1 p2 limit) uuid id filename (negb block) c2 h2) as [[[x2 o2] d2] g2].
    exact H.
  Qed.

  Lemma watch_loop_agree s : forall f1 f2 lost c1 c2, follows lost c1 c2 -> (length (arriving c1) < f1)%nat -> (length (arriving c2) < f2)%nat ->
    let '(r1, e1, _) := watch_loop crc f1 s c1 in
    let '(r2, e2, _) := watch_loop crc f2 s c2 in
    (r1 = r2 /\ e1 = e2) \/ (r1 = Err EIO /\ (exists more, e2 = e1 ++ more) /\ (lost = [] -> r2 = Err EIO /\ e1 = e2)).
  Proof.
    induction f1 as [|f1 IH]; intros f2 lost c1 c2 F L1 L2; [lia|]. destruct f2 as [|f2]; [lia|]. cbn [watch_loop].
    pose proof (steady_event crc s lost c1 c2 F) as H.
    destruct (next_event crc s c1) as [r1 d1] eqn:E1, (next_event crc s c2) as [r2 d2] eqn:E2.
    destruct H as [(H1 & H2 & H3)|(H1 & _ & H2)]; cbn [fst snd] in *.
    - subst r2. destruct r1 as [[e|]|e|p|]; try (left; split; reflexivity).
      apply event_takes in E1. apply event_takes in E2. specialize (IH f2 lost d1 d2 (conj H2 H3) ltac:(lia) ltac:(lia)).
      destruct (watch_loop crc f1 s d1) as [[x1 p1] ?], (watch_loop crc f2 s d2) as [[x2 p2] ?].
      destruct IH as [[-> ->]|(-> & (more & ->) & IH)]; [left; auto|right].
      split; [reflexivity|]. split; [exists more; reflexivity|]. intros A. destruct (IH A) as [-> E]. split; [reflexivity|]. f_equal. exact E.
    - subst r1. destruct r2 as [[e|]|e|p|]; [destruct (watch_loop crc f2 s d2) as [[? ?] ?]|..]; right; (split; [reflexivity|]);
        (split; [eexists; reflexivity|]); intros A; destruct (H2 A) as [X _]; try discriminate X; injection X as ->; split; reflexivity.
  Qed.
  Definition result2 (x : res unit * list (bytes * N) * list event * option conn) : res unit := fst (fst (fst x)).
  Definition files (x : res unit * list (bytes * N) * list event * option conn) : list (bytes * N) := snd (fst (fst x)).
  Definition events (x : res unit * list (bytes * N) * list event * option conn) : list event := snd (fst x).
  Lemma watch_agree uuid id conf lost s1 s2 : fewer_bytes lost s1 s2 ->
    let x := watch sha1 sha256 crc checks uuid id conf (Some s1) in
    let y := watch sha1 sha256 crc checks uuid id conf (Some s2) in
    (result2 x = result2 y /\ files x = files y /\ events x = events y) \/
    (result2 x = Err EIO /\ (files x = [] /\ events x = [] \/ files x = files y) /\ (exists more, events y = events x ++ more) /\
      (lost = [] -> result2 y = Err EIO /\ files x = files y /\ events x = events y)).
  Proof.
    intros F. cbv zeta. unfold watch, result2, files, events. destruct conf as [user pw|]; [|left; repeat split; reflexivity].
    destruct (connect_agree user pw lost s1 s2 F) as (c1 & c2 & r1 & r2 & -> & -> & [[<- G]|[-> G]]).
    2:{ right. split; [reflexivity|]. split; [left; split; reflexivity|]. split; [eexists; reflexivity|]. intros L. rewrite (G L). repeat split; reflexivity. }
    destruct r1; try (left; repeat split; reflexivity). pose proof (steady_files checks lost _ _ G) as H.
    destruct (conn_binlog_files checks c1) as [x1 d1], (conn_binlog_files checks c2) as [x2 d2].
    destruct H as [(H1 & H2 & H3)|(H1 & _ & H2)]; cbn [fst snd] in *.
    2:{ subst x1. right. split; [reflexivity|]. split; [left; split; reflexivity|]. split; [eexists; reflexivity|]. intros L. destruct (H2 L) as [-> _]. repeat split; reflexivity. }
    subst x2. destruct x1 as [fs| | |]; try (left; repeat split; reflexivity).
    pose proof (steady_request checks uuid id bo_new lost d1 d2 (conj H2 H3)) as H.
    destruct (request_stream checks uuid id bo_new d1) as [q1 g1], (request_stream checks uuid id bo_new d2) as [q2 g2].
    destruct H as [(K1 & K2 & K3)|(K1 & _ & K2)]; cbn [fst snd] in *.
    2:{ subst q1. right. split; [reflexivity|]. split; [right; destruct q2; try reflexivity; destruct (watch_loop _ _ _ _) as [[? ?] ?]; reflexivity|].
        split; [eexists; reflexivity|]. intros L. destruct (K2 L) as [-> _]. repeat split; reflexivity. }
    subst q2. destruct q1 as [st| | |]; try (left; repeat split; reflexivity).
    pose proof (arriving_le g1). pose proof (arriving_le g2).
    pose proof (watch_loop_agree st (S (sched_len (c_rd g1))) (S (sched_len (c_rd g2))) lost g1 g2 (conj K2 K3) ltac:(lia) ltac:(lia)) as W.
    destruct (watch_loop crc (S (sched_len (c_rd g1))) st g1) as [[w1 e1] ?], (watch_loop crc (S (sched_len (c_rd g2))) st g2) as [[w2 e2] ?]. cbn [fst snd].
    destruct W as [[-> ->]|(-> & M & W)]; [left; auto|right]. split; [reflexivity|]. split; [right; reflexivity|]. split; [exact M|].
    intros L. destruct (W L) as [-> ->]. auto.
  Qed.
End Tools.
