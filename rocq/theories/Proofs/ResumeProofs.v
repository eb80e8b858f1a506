(** Proofs about reading a binlog in several sessions *)
From Coq Require Import Strings.String.
From Coq Require Import List NArith Arith Bool Lia.
From Verif Require Import Model.Base Model.Auth Model.Conn Model.Stmt Model.Session Model.Event Model.EventBody Model.Stream Spec.Nums Spec.Wire Spec.Framing Spec.Packets
  Spec.Session Spec.Commands Spec.ResultSets Spec.BinlogSpec Spec.StreamSpec Spec.Programs Spec.Resume
  Proofs.BaseLemmas Proofs.WireLemmas Proofs.ConnProofs Proofs.EventProofs Proofs.EventBodyProofs Proofs.SessionProofs Proofs.CommandProofs Proofs.StreamProofs Proofs.ScheduleProofs Proofs.DmlProofs.
Import ListNotations.
Open Scope N_scope.

(** ** what an event of each kind is to the client *)
Lemma code_cases (P : N -> Prop) : Forall P (map N.of_nat (seq 0 39)) -> forall c, c < 39 -> P c.
Proof.
  intros F c H. rewrite Forall_forall in F. apply F. apply in_map_iff. exists (N.to_nat c). split; [apply N2Nat.id|]. apply in_seq. lia.
Qed.
Definition kind_is (k : event_kind) (e : event_kind) : bool :=
  match k, e with KRotate, KRotate => true | KFormatDescription, KFormatDescription => true | _, _ => false end.
Lemma code_kind c : c < 39 -> match kind_with_code c with
  | Some k => kind_is KRotate k = (c =? 4) /\ kind_is KFormatDescription k = (c =? 15)
  | None => c <> 4 /\ c <> 15 /\ c <> 27
  end.
Proof.
  revert c. apply code_cases. cbn [map seq N.of_nat]. repeat (constructor; [vm_compute; repeat split; discriminate|]). constructor.
Qed.
Lemma code_type c : c < 39 -> type_with_code c <> None.
Proof. revert c. apply code_cases. cbn [map seq]. repeat (constructor; [vm_compute; discriminate|]). constructor. Qed.
Lemma flag_kept n : artificial (n mod 1024) = artificial n.
Proof. unfold artificial. change 1024 with (2 ^ 10). apply N.mod_pow2_bits_low. reflexivity. Qed.

Lemma unsupported sum e : log_event_ok sum e -> parsed sum e = None -> le_code e <> 4 /\ le_code e <> 15 /\ le_code e <> 27.
Proof.
  intros (_ & H & _). unfold parsed, header_for. pose proof (code_kind _ H) as K. pose proof (code_type _ H) as T.
  destruct (kind_with_code (le_code e)); [|auto]. destruct (type_with_code (le_code e)); [discriminate|congruence].
Qed.
Lemma supported_event sum e v : log_event_ok sum e -> parsed sum e = Some v ->
  (kind_is KRotate (ev_kind v) = (le_code e =? 4)) /\ (kind_is KFormatDescription (ev_kind v) = (le_code e =? 15)) /\
  h_next_pos (ev_header v) = le_next_pos e /\ h_flags (ev_header v) = le_flags e mod 1024 /\ ev_data v = le_body e.
Proof.
  intros (_ & H & _). unfold parsed, header_for. pose proof (code_kind _ H) as K.
  destruct (kind_with_code (le_code e)) as [k|]; [|discriminate]. destruct (type_with_code (le_code e)); [|discriminate]. cbn [option_map].
  intros [= <-]. cbn. tauto.
Qed.
Lemma wanted_event sum e v : log_event_ok sum e -> parsed sum e = Some v ->
  wanted v = negb (le_code e =? 15) && negb (artificial (le_flags e)).
Proof.
  intros O P. destruct (supported_event _ _ _ O P) as (_ & K & _ & F & _). unfold wanted. rewrite F, flag_kept, <- K.
  destruct (ev_kind v); reflexivity.
Qed.
Lemma note_rotate sum e v at_ name : log_event_ok sum e -> parsed sum e = Some v -> rotates_to name e -> note at_ v = (name, 4).
Proof.
  intros O P (C & B). destruct (supported_event _ _ _ O P) as (K & _ & _ & _ & D). rewrite C in K. unfold note. rewrite D, B.
  destruct (ev_kind v); try discriminate K. rewrite rotate_read by reflexivity. reflexivity.
Qed.
Lemma note_other sum e v at_ : log_event_ok sum e -> parsed sum e = Some v -> le_code e <> 4 -> le_next_pos e <> 0 ->
  note at_ v = (fst at_, le_next_pos e).
Proof.
  intros O P C Z. destruct (supported_event _ _ _ O P) as (K & _ & N & _). apply N.eqb_neq in C, Z. rewrite C in K. unfold note.
  rewrite N, Z. destruct (ev_kind v); try discriminate K; reflexivity.
Qed.

(** ** places *)
Lemma place_snoc start es e : place_after start (es ++ [e]) = le_next_pos e.
Proof. unfold place_after. rewrite map_app. cbn [map]. apply last_last. Qed.
Lemma placed_app sum es1 : forall start es2, placed sum start (es1 ++ es2) -> placed sum start es1 /\ placed sum (place_after start es1) es2.
Proof.
  induction es1 as [|e es IH] using rev_ind; intros start es2 H; [split; [exact I|exact H]|].
  rewrite <- app_assoc in H. destruct (IH _ _ H) as [H1 H2]. cbn [app placed] in H2. destruct H2 as [H2 H3]. rewrite place_snoc. split; [|exact H3].
  clear - H1 H2. revert start H1 H2. induction es as [|x es IH]; intros start H1 H2; [cbn in *; auto|].
  cbn [app placed] in *. destruct H1 as [H1 H4]. split; [exact H1|]. apply IH; [exact H4|]. rewrite H2. f_equal.
  unfold place_after. cbn [map]. destruct es; [reflexivity|]. cbn [map]. clear. generalize (le_next_pos l) (map le_next_pos es) (le_next_pos x) start.
  intros a l0 b c. revert a. induction l0 as [|y l0 IH]; intros a; [reflexivity|]. cbn [last]. destruct l0; [reflexivity|]. exact (IH y).
Qed.
Lemma placed_ge sum es : forall start, placed sum start es -> start <= place_after start es.
Proof.
  induction es as [|e es IH] using rev_ind; intros start H; [cbn; lia|]. rewrite place_snoc.
  destruct (placed_app sum es start [e] H) as [H1 H2]. specialize (IH _ H1). cbn [placed] in H2. unfold event_size in H2. lia.
Qed.

Section Log.
  Variables (sum : bool) (files : list log_file).
  Hypothesis OK : log_ok sum files.

  (** at a place of the file called [name] *)
  Definition within (name : bytes) (pos : N) (es : list log_event) (after : list log_file) : Prop :=
    exists before f done, files = before ++ f :: after /\ lf_events f = done ++ es /\ name = lf_name f /\ pos = place_after (lf_first f) done.
  Lemma stands_within at_ pos es after : stands files at_ pos es after -> within (fst at_) pos es after.
  Proof. intros (b & f & d & H1 & H2 & H3 & H4 & _). exists b, f, d. auto. Qed.
  Lemma within_stands name pos es after : within name pos es after -> stands files (name, pos) pos es after.
  Proof. intros (b & f & d & H1 & H2 & H3 & H4). exists b, f, d. cbn. auto 10. Qed.

  Lemma file_of before f after : files = before ++ f :: after -> file_ok sum f.
  Proof. intros E. destruct OK as (_ & H & _). rewrite E in H. apply Forall_app in H as [_ H]. inversion H; assumption. Qed.
  Lemma linked_from before : forall l, linked (before ++ l) -> linked l.
  Proof.
    induction before as [|f b IH]; intros l H; [exact H|]. apply IH. cbn [app linked] in H. destruct (b ++ l); [exact I|]. apply H.
  Qed.
  Lemma within_event name pos e es after : within name pos (e :: es) after ->
    log_event_ok sum e /\ le_next_pos e <> 0 /\ within name (le_next_pos e) es after /\ artificial (le_flags e) = false /\ le_code e <> 15 /\
    (le_code e <> 4 \/ (es = [] /\ exists g after', after = g :: after' /\ rotates_to (lf_name g) e)).
  Proof.
    intros (b & f & dn & E1 & E2 & E3 & E4). pose proof (file_of _ _ _ E1) as (_ & _ & _ & Hf & F & Pl). rewrite E2 in F, Pl.
    destruct (placed_app _ _ _ _ Pl) as [P1 P2]. apply Forall_app in F as [_ F]. inversion F as [|? ? O _ E]. subst.
    split; [exact O|]. cbn [placed] in P2. destruct P2 as [P2 _]. split; [unfold event_size in P2; lia|].
    split; [exists b, f, (dn ++ [e]); rewrite <- app_assoc, place_snoc; auto|].
    destruct OK as (_ & _ & L). rewrite E1 in L. apply linked_from in L. cbn [linked] in L. destruct after as [|g after].
    - rewrite E2 in L. apply Forall_app in L as [_ L]. inversion L as [|? ? (L1 & L2 & L3)]. auto 10.
    - destruct L as [(es1 & r & L1 & L2 & L3 & L4) _]. rewrite L1 in E2. destruct es as [|e2 es] using rev_ind.
      + apply app_inj_tail in E2 as [-> ->]. split; [exact L4|]. destruct L3 as [L3 L5]. split; [rewrite L3; discriminate|]. right.
        split; [reflexivity|]. exists g, after. repeat split; assumption.
      + rewrite app_comm_cons, app_assoc in E2. apply app_inj_tail in E2 as [-> ->]. apply Forall_app in L2 as [_ L2].
        inversion L2 as [|? ? (K1 & K2 & K3)]. auto 10.
  Qed.
  Lemma within_pos name pos es after : within name pos es after -> pos <> 0.
  Proof.
    intros (b & f & dn & E1 & E2 & _ & ->). pose proof (file_of _ _ _ E1) as (_ & _ & _ & Hf & _ & Pl). rewrite E2 in Pl.
    apply placed_app in Pl as [P _]. apply placed_ge in P. lia.
  Qed.
  Lemma within_next name pos es g after : within name pos es (g :: after) -> within (lf_name g) (lf_first g) (lf_events g) after.
  Proof. intros (b & f & dn & E1 & _). exists (b ++ [f]), g, []. rewrite <- app_assoc. auto. Qed.

  Lemma stands_next name pos es g after : within name pos es (g :: after) -> stands files (lf_name g, 4) (lf_first g) (lf_events g) after.
  Proof. intros (b & f & dn & E1 & _). exists (b ++ [f]), g, []. rewrite <- app_assoc. cbn. auto 10. Qed.

  (** ** the events sent, seen from the client's place *)
  Inductive flow : bytes -> N -> list log_event -> list log_file -> list log_event -> list log_event -> Prop :=
  | flow_stop name pos es after : flow name pos es after [] (es ++ log_events after)
  | flow_event name pos e es after sent left : le_code e <> 4 -> flow name (le_next_pos e) es after sent left ->
      flow name pos (e :: es) after (e :: sent) left
  | flow_last name pos e g after sent left : rotates_to (lf_name g) e ->
      flow (lf_name g) (lf_first g) (lf_events g) after sent left -> flow name pos [e] (g :: after) (e :: sent) left
  | flow_heartbeat name pos es after h sent left : log_event_ok sum h -> le_code h = 27 -> le_next_pos h = pos ->
      artificial (le_flags h) = true -> flow name pos es after sent left -> flow name pos es after (h :: sent) left
  | flow_next name pos g after r sent left : log_event_ok sum r -> rotates_to (lf_name g) r -> artificial (le_flags r) = true ->
      flow (lf_name g) (lf_first g) (lf_events g) after sent left -> flow name pos [] (g :: after) (r :: sent) left
  | flow_here name pos es after r sent left : log_event_ok sum r -> rotates_to name r -> artificial (le_flags r) = true ->
      stands files (name, 4) pos es after -> flow name pos es after sent left -> flow name pos es after (r :: sent) left
  | flow_describe name pos es after d sent left : log_event_ok sum d -> le_code d = 15 -> le_next_pos d = pos ->
      flow name pos es after sent left -> flow name pos es after (d :: sent) left.

  Lemma feed_flow pos es after sent left : feed sum pos es after sent left -> forall name, within name pos es after ->
    flow name pos es after sent left /\
    (es = [] -> forall g after', after = g :: after' -> flow (lf_name g) (lf_first g) (lf_events g) after' sent left).
  Proof.
    induction 1 as [pos es after|pos e es after sent left H IH|pos es after h sent left O C P A W H IH|pos g after r d sent left O1 R A O2 C P H IH];
      intros name Wi.
    - split; [constructor|]. intros -> g after' ->. exact (flow_stop (lf_name g) (lf_first g) (lf_events g) after').
    - split; [|discriminate]. destruct (within_event _ _ _ _ _ Wi) as (_ & _ & Wi' & _ & _ & [K|(-> & g & after' & -> & K)]); destruct (IH _ Wi') as [H1 H2].
      + apply flow_event; assumption.
      + apply flow_last; [exact K|]. apply H2; reflexivity.
    - destruct (IH _ Wi) as [H1 _]. split; [apply flow_heartbeat; assumption|]. intros -> g after' ->. destruct W as [W|W]; congruence.
    - pose proof (within_next _ _ _ _ _ Wi) as Wi'. destruct (IH _ Wi') as [H1 _].
      split; [apply flow_next; try assumption; apply flow_describe; assumption|].
      intros _ g' after' [= <- <-]. apply flow_here; try assumption; [apply (stands_next _ _ _ _ _ Wi)|]. apply flow_describe; assumption.
  Qed.

  Lemma reported_one e v : parsed sum e = Some v -> reported sum [e] = [v].
  Proof. intros H. cbn [reported]. rewrite H. reflexivity. Qed.
  (** the flow is well formed *)
  Lemma flow_ok name pos es after sent left : flow name pos es after sent left -> within name pos es after -> Forall (log_event_ok sum) sent.
  Proof.
    induction 1; intros W; constructor; auto.
    - apply (within_event _ _ _ _ _ W).
    - apply IHflow. apply (within_event _ _ _ _ _ W).
    - apply (within_event _ _ _ _ _ W).
    - apply IHflow. apply (within_next _ _ _ _ _ W).
    - apply IHflow. apply (within_next _ _ _ _ _ W).
  Qed.
  (** up to and with the next event that is reported *)
  Lemma flow_advance us : forall name pos es after e v sent left, flow name pos es after (us ++ e :: sent) left -> within name pos es after ->
    Forall (log_event_ok sum) us -> reported sum us = [] -> log_event_ok sum e -> parsed sum e = Some v ->
    forall at_, fst at_ = name ->
    exists t pos' es' after', es ++ log_events after = t ++ es' ++ log_events after' /\ reported sum t = filter wanted [v] /\
      flow (fst (note at_ v)) pos' es' after' sent left /\ stands files (note at_ v) pos' es' after'.
  Proof.
    induction us as [|u us IH]; intros name pos es after e v sent left H W Fu R Oe P at_ Ha.
    - cbn [app] in H. pose proof (wanted_event _ _ _ Oe P) as Hw. cbn [filter].
      inversion H as [|? ? ? es1 ? ? ? C H'|? ? ? g after1 ? ? C H'|? ? ? ? ? ? ? O C N A H'|? ? g after1 ? ? ? O C A H'|? ? ? ? ? ? ? O C A K H'|? ? ? ? ? ? ? O C N H']; subst.
      + destruct (within_event _ _ _ _ _ W) as (O & Z & W' & A & C15 & _). apply N.eqb_neq in C15. rewrite C15, A in Hw.
        rewrite (note_other _ _ _ at_ O P C Z). exists [e], (le_next_pos e), es1, after. cbn [fst negb andb] in *. rewrite Hw.
        split; [reflexivity|]. split; [apply reported_one; exact P|]. split; [exact H'|]. apply within_stands. exact W'.
      + destruct (within_event _ _ _ _ _ W) as (O & Z & W' & A & C15 & _). apply N.eqb_neq in C15. rewrite C15, A in Hw. cbn [negb andb] in Hw. rewrite Hw.
        rewrite (note_rotate _ _ _ at_ _ O P C). exists [e], (lf_first g), (lf_events g), after1. cbn [fst].
        split; [reflexivity|]. split; [apply reported_one; exact P|]. split; [exact H'|].
        apply (stands_next _ _ _ _ _ W').
      + rewrite C, A in Hw. cbn in Hw. rewrite Hw. rewrite (note_other _ _ _ at_ Oe P); [|rewrite C; discriminate|apply (within_pos _ _ _ _ W)].
        exists [], (le_next_pos e), es, after. cbn [fst app]. split; [reflexivity|]. split; [reflexivity|]. split; [exact H'|]. apply within_stands. exact W.
      + rewrite A, andb_false_r in Hw. rewrite Hw. rewrite (note_rotate _ _ _ at_ _ O P C).
        exists [], (lf_first g), (lf_events g), after1. cbn [fst app]. split; [reflexivity|]. split; [reflexivity|]. split; [exact H'|].
        apply (stands_next _ _ _ _ _ W).
      + rewrite A, andb_false_r in Hw. rewrite Hw. rewrite (note_rotate _ _ _ at_ _ O P C).
        exists [], pos, es, after. cbn [fst app]. split; [reflexivity|]. split; [reflexivity|]. split; [exact H'|]. exact K.
      + rewrite C in Hw. cbn in Hw. rewrite Hw. rewrite (note_other _ _ _ at_ Oe P); [|rewrite C; discriminate|apply (within_pos _ _ _ _ W)].
        exists [], (le_next_pos e), es, after. cbn [fst app]. split; [reflexivity|]. split; [reflexivity|]. split; [exact H'|]. apply within_stands. exact W.
    - cbn [app] in H. inversion Fu as [|? ? Ou Fu']; subst. cbn [reported] in R. destruct (parsed sum u) eqn:Pu; [discriminate R|].
      destruct (unsupported _ _ Ou Pu) as (U1 & U2 & U3).
      inversion H as [|? ? ? es1 ? ? ? C H'|? ? ? g after1 ? ? C H'|? ? ? ? ? ? ? O C N A H'|? ? g after1 ? ? ? O C A H'|? ? ? ? ? ? ? O C A K H'|? ? ? ? ? ? ? O C N H'];
        subst; try (destruct C; congruence); try congruence.
      destruct (within_event _ _ _ _ _ W) as (_ & _ & W' & _).
      destruct (IH _ _ _ _ _ _ _ _ H' W' Fu' R Oe P at_ eq_refl) as (t & pos' & es' & after' & E1 & E2 & E3 & E4).
      exists (u :: t), pos', es', after'. cbn [app reported]. rewrite E1, Pu. auto.
  Qed.
  Lemma flow_end name pos es after us left : flow name pos es after us left -> Forall (log_event_ok sum) us -> reported sum us = [] ->
    exists t, es ++ log_events after = t ++ left /\ reported sum t = [].
  Proof.
    induction 1 as [|name pos e es after sent left C H IH|name pos e g after sent left C H IH|name pos es after h sent left O C N A H IH
      |name pos g after r sent left O C A H IH|name pos es after r sent left O C A K H IH|name pos es after d sent left O C N H IH]; intros F R;
      [exists []; auto| | | | | | ]; inversion F as [|? ? Ou F']; subst; cbn [reported] in R;
      destruct (parsed sum _) eqn:P in R; try discriminate R; destruct (unsupported _ _ Ou P) as (U1 & U2 & U3);
      try (destruct C; congruence); try congruence.
    destruct (IH F' R) as (t & E & T). exists (e :: t). cbn [app reported]. rewrite E, P. auto.
  Qed.

  (** ** reading *)
  Variables (crc : bytes -> N) (s : binlog_stream).
  Hypotheses (Hcrc : forall bs, crc bs < 2 ^ 32) (Hopen : s_completed s = false) (Hsum : p_checksum (s_pv4 s) = sum).

  Lemma next_steady : steady (next_event crc s).
  Proof. apply (program_steady (fun x => x) (fun x => x) crc true). constructor. Qed.
  Definition stops (stop : list bytes) : Prop := stop = [] \/ exists b rest, stop = [b :: rest] /\ b <> x00.

  Lemma next_none us stop c : Forall (log_event_ok sum) us -> reported sum us = [] -> stops stop ->
    awaits c (map (event_message crc sum) us ++ stop) [] -> forall v, fst (next_event crc s c) <> Ok (Some v).
  Proof.
    intros F R S A v. rewrite <- Hsum in F, R, A.
    destruct S as [->|(b & rest & -> & B)].
    - rewrite app_nil_r in A. destruct (stream_cut crc s us [] c Hcrc Hopen F nil_no_message A) as (c' & E). rewrite R in E.
      cbn [length io_pulls returned map app] in E. destruct (next_event crc s c) as [r ?]. injection E as -> _. discriminate.
    - destruct (s_non_block s && (b2n b =? 0xfe)) eqn:N.
      + apply andb_prop in N as [N1 N2]. apply N.eqb_eq in N2.
        destruct (next_tail crc s Hcrc Hopen us [b :: rest] [] c (Ok SeEnd) F R A) as (c1 & c2 & _ & _ & _ & E); [|exact I|].
        * intros c1 A1 _. destruct (recv_end crc s (b :: rest) [] c1 N1) as (c2 & E & _); [|exact A1|eauto].
          exists rest. f_equal. apply b2n_inj. exact N2.
        * rewrite E. discriminate.
      + destruct (stream_broken crc s us b rest [] c Hcrc Hopen F A B) as (c' & E).
        { intros ->. apply andb_false_iff in N as [N|N]; [exact N|discriminate N]. }
        rewrite R in E. cbn [length io_pulls returned map app] in E. destruct (next_event crc s c) as [r ?]. injection E as -> _. discriminate.
  Qed.

  Lemma reads n : forall at_ pos es after sent left stop lost c1 c2 events at1 c', stands files at_ pos es after ->
    flow (fst at_) pos es after sent left -> follows lost c1 c2 -> stops stop ->
    awaits c2 (map (event_message crc sum) sent ++ stop) [] -> read_events crc s n at_ c1 = (events, at1, c') ->
    exists t1 t2, es ++ log_events after = t1 ++ t2 /\ filter wanted events = reported sum t1 /\ to_come files at1 t2 /\
      (lost = [] -> (length events < n)%nat -> exists u, t2 = u ++ left /\ reported sum u = []).
  Proof.
    induction n as [|n IH]; intros at_ pos es after sent left stop lost c1 c2 events at1 c' St Fl Fo Sp Aw E.
    - cbn [read_events] in E. injection E as <- <- _. exists [], (es ++ log_events after). split; [reflexivity|]. split; [reflexivity|].
      split; [exists pos, es, after; auto|]. cbn [length]. lia.
    - cbn [read_events] in E. pose proof (next_steady lost c1 c2 Fo) as Ag.
      pose proof (flow_ok _ _ _ _ _ _ Fl (stands_within _ _ _ _ St)) as Fok.
      assert (First : reported sum sent = [] \/ exists us e v sent', sent = us ++ e :: sent' /\ reported sum us = [] /\ parsed sum e = Some v /\
        Forall (log_event_ok sum) us /\ log_event_ok sum e /\ Forall (log_event_ok sum) sent').
      { rewrite <- Hsum in Fok |- *. apply first_reported. exact Fok. }
      assert (Stop : (forall v, fst (next_event crc s c1) <> Ok (Some v)) -> events = [] /\ at1 = at_).
      { intros K. destruct (next_event crc s c1) as [[[v|]| | |] ?]; try (injection E as <- <- _; auto). destruct (K v eq_refl). }
      assert (Done : (lost = [] -> reported sum sent = []) -> events = [] /\ at1 = at_ -> exists t1 t2, es ++ log_events after = t1 ++ t2 /\ filter wanted events = reported sum t1 /\
        to_come files at1 t2 /\ (lost = [] -> (length events < S n)%nat -> exists u, t2 = u ++ left /\ reported sum u = [])).
      { intros R [-> ->]. exists [], (es ++ log_events after). split; [reflexivity|]. split; [reflexivity|]. split; [exists pos, es, after; auto|].
        intros L _. apply (flow_end _ _ _ _ _ _ Fl Fok (R L)). }
      destruct First as [R|(us & e & v & sent' & -> & R & P & Fu & Oe & Fs)].
      + apply Done; [auto|]. apply Stop. intros v K.
        pose proof (next_none sent stop c2 Fok R Sp Aw v) as K'. destruct Ag as [(A1 & _)|(A1 & _)]; congruence.
      + assert (Ev : exists c2', next_event crc s c2 = (Ok (Some v), c2') /\ awaits c2' (map (event_message crc sum) sent' ++ stop) [] /\ same_but_read c2 c2').
        { rewrite <- Hsum in *. apply (next_single crc s Hcrc Hopen us e v _ [] c2 Fu R Oe P). rewrite map_app in Aw |- *. cbn [map] in *.
          rewrite <- !app_assoc in *. exact Aw. }
        destruct Ev as (c2' & E2 & A2 & S2). rewrite E2 in Ag. destruct (next_event crc s c1) as [r c1'] eqn:E1.
        destruct Ag as [(G1 & G2 & G3)|(G1 & _ & G2)]; cbn [fst snd] in *.
        * subst r. destruct (read_events crc s n (note at_ v) c1') as [[evs at2] c3] eqn:E3. injection E as <- <- <-.
          destruct (flow_advance us _ _ _ _ _ _ _ _ Fl (stands_within _ _ _ _ St) Fu R Oe P at_ eq_refl) as (t & pos' & es' & after' & T1 & T2 & Fl' & St').
          destruct (IH _ _ _ _ _ _ _ _ _ _ _ _ _ St' Fl' (conj G2 G3) Sp A2 E3) as (t1 & t2 & U1 & U2 & U3 & U4).
          exists (t ++ t1), t2. rewrite T1, U1, app_assoc. split; [reflexivity|]. rewrite <- Hsum in *. rewrite reported_app, T2, <- U2.
          split; [|split; [exact U3|intros L1 L2; apply U4; [exact L1|cbn [length] in L2; lia]]].
          cbn [filter]. destruct (wanted v); reflexivity.
        * apply Done; [|apply Stop; cbn [fst]; intros ? K; congruence]. intros L. destruct (G2 L) as [K _]. discriminate K.
  Qed.
End Log.

(** ** a session *)
Lemma same_file files b f a b' f' a' : NoDup (map lf_name files) -> files = b ++ f :: a -> files = b' ++ f' :: a' -> lf_name f = lf_name f' ->
  f = f' /\ a = a'.
Proof.
  intros N E E' Hn. revert b b' N E E'. induction files as [|x l IH]; intros b b' N E E'; [destruct b; discriminate E|].
  cbn [map] in N. inversion N as [|? ? N1 N2]; subst. destruct b as [|y b], b' as [|y' b']; cbn [app] in E, E'.
  - injection E as -> ->. injection E' as -> ->. auto.
  - injection E as -> ->. injection E' as -> ->. destruct N1. rewrite Hn. apply in_map. apply in_or_app. right. left. reflexivity.
  - injection E as -> ->. injection E' as -> E'. destruct N1. rewrite <- Hn, map_app. apply in_or_app. right. left. reflexivity.
  - injection E as -> ->. injection E' as -> E'. apply (IH b b' N2 eq_refl E').
Qed.
Lemma same_place sum d1 : forall start l1 d2 l2, placed sum start (d1 ++ l1) -> d1 ++ l1 = d2 ++ l2 ->
  place_after start d1 = place_after start d2 -> l1 = l2 /\ d1 = d2.
Proof.
  assert (Up : forall e d start l, placed sum start ((e :: d) ++ l) -> start < place_after start (e :: d)).
  { intros e d start l H. apply placed_app in H as [H _]. destruct d as [|z d] using rev_ind.
    - cbn in *. unfold event_size in H. lia.
    - clear IHd. rewrite app_comm_cons, place_snoc. rewrite app_comm_cons in H. destruct (placed_app _ _ _ _ H) as [H1 [H2 _]].
      apply placed_ge in H1. unfold event_size in H2. lia. }
  assert (Cons : forall e d start, place_after start (e :: d) = place_after (le_next_pos e) d).
  { intros e d start. unfold place_after. cbn [map]. destruct d as [|z d] using rev_ind; [reflexivity|]. rewrite map_app. cbn [map]. rewrite app_comm_cons, !last_last. reflexivity. }
  induction d1 as [|e d1 IH]; intros start l1 d2 l2 P E L.
  - destruct d2 as [|e2 d2]; [auto|]. cbn [app] in E, P. rewrite E in P. specialize (Up e2 d2 start l2 P). change (place_after start []) with start in L. lia.
  - destruct d2 as [|e2 d2].
    + specialize (Up e d1 start l1 P). change (place_after start []) with start in L. lia.
    + cbn [app] in E. injection E as <- E. rewrite !Cons in L. cbn [app placed] in P. destruct P as [_ P].
      destruct (IH _ _ _ _ P E L) as [-> ->]. auto.
Qed.
Lemma stands_unique sum files at_ pos es after pos' es' after' : log_ok sum files -> stands files at_ pos es after -> stands files at_ pos' es' after' ->
  pos = pos' /\ es = es' /\ after = after'.
Proof.
  intros OK (b & f & dn & E1 & E2 & E3 & E4 & E5) (b' & f' & dn' & E1' & E2' & E3' & E4' & E5').
  destruct (same_file files b f after b' f' after' (proj1 OK) E1 E1' ltac:(congruence)) as [<- <-].
  destruct (file_of sum files OK _ _ _ E1) as (_ & _ & _ & P & _ & Pl).
  assert (L : place_after (lf_first f) dn = place_after (lf_first f) dn').
  { pose proof Pl as Pl'. rewrite E2 in Pl. rewrite E2' in Pl'. apply placed_app in Pl as [Pl _]. apply placed_app in Pl' as [Pl' _].
    apply placed_ge in Pl. apply placed_ge in Pl'. destruct E5 as [E5|[E5 E6]], E5' as [E5'|[E5' E6']]; subst; try reflexivity; try congruence; lia. }
  rewrite E2 in Pl, E2'. destruct (same_place sum dn (lf_first f) es dn' es' Pl E2' L) as [-> ->]. subst. auto.
Qed.
Lemma place_limit sum es : forall start, start < 2 ^ 32 -> Forall (log_event_ok sum) es -> place_after start es < 2 ^ 32.
Proof.
  induction es as [|e es IH] using rev_ind; intros start H F; [exact H|]. rewrite place_snoc. apply Forall_app in F as [_ F]. inversion F as [|? ? O]. apply O.
Qed.
Lemma stands_ok sum files at_ pos es after : log_ok sum files -> stands files at_ pos es after ->
  N.of_nat (length (fst at_)) < 2 ^ 30 /\ snd at_ < 2 ^ 32.
Proof.
  intros OK (b & f & dn & E1 & E2 & E3 & E4 & E5). destruct (file_of sum files OK _ _ _ E1) as (L & _ & _ & P & F & _).
  rewrite E3. split; [exact L|]. destruct E5 as [->|[-> _]]; [|reflexivity]. rewrite E4. rewrite E2 in F. apply Forall_app in F as [F _].
  apply (place_limit sum _ _ (proj2 P) F).
Qed.
Lemma described_sum sum files name d : log_ok sum files -> described files name d -> p_checksum (described_parser d) = sum.
Proof. intros (_ & F & _) (f & I & _ & ->). rewrite Forall_forall in F. apply (F f I). Qed.
Lemma read_events_out crc s n : forall at_ c events at1 c', read_events crc s n at_ c = (events, at1, c') -> same_but_read c c'.
Proof.
  induction n as [|n IH]; intros at_ c events at1 c' E; cbn [read_events] in E; [injection E as <- <- <-; apply sbr_refl|].
  destruct (next_event crc s c) as [r c1] eqn:E1. pose proof (next_reads _ _ _ _ _ E1) as S1.
  destruct r as [[v|]| | |]; try (injection E as <- <- <-; exact S1).
  destruct (read_events crc s n (note at_ v) c1) as [[evs at2] c2] eqn:E2. injection E as <- <- <-. apply (sbr_trans _ _ _ S1). apply (IH _ _ _ _ _ E2).
Qed.

Lemma session_step x uuid random_id n at_ c events at1 c' left lost todo :
  setting_ok x -> to_come (st_log x) at_ todo ->
  session (st_crc x) (st_checks x) uuid random_id (st_options x) n at_ c = (events, at1, c') ->
  served x uuid random_id at_ c c' left lost ->
  exists t1 t2, todo = t1 ++ t2 /\ filter wanted events = reported (st_sum x) t1 /\ to_come (st_log x) at1 t2 /\
    (lost = [] -> (length events < n)%nat -> exists u, t2 = u ++ left /\ reported (st_sum x) u = []).
Proof.
  destruct x as [crc checks o sum files]. cbn [st_crc st_checks st_options st_sum st_log].
  intros (Hcrc & Hid & Hhb & Hsids & OK) (pos & es & after & St & ->) E
    (slave_id & master_id & algorithm & mode & qs & ans & asked & ms & Hsl & Hsl' & Hu & Halg & Hset & Hserve & Hask & Hacc & Hw).
  cbn [st_crc st_checks st_options st_sum st_log] in *.
  set (w := arriving c ++ lost) in *.
  set (c2 := mk_conn [RData w] (c_ws c) (c_out c) (c_cap c) (c_status c) (c_pkt_nr c)).
  assert (Dw : delivered (c_rd c2) = w) by (subst c2; cbn [c_rd delivered]; destruct w; [reflexivity|apply app_nil_r]).
  assert (Fo : follows lost c c2) by (split; [unfold alike; subst c2; cbn; auto 10|exact Dw]).
  pose proof (program_steady (fun x => x) (fun x => x) crc checks _ (pg_stream _ _ _ _ uuid random_id (start_at o at_)) lost c c2 Fo) as Ag.
  unfold session in E. destruct (request_stream checks uuid random_id (start_at o at_) c) as [r c1] eqn:E1.
  destruct (stands_ok sum files at_ pos es after OK St) as [B1 B2].
  assert (Oo : options_ok (start_at o at_)).
  { unfold options_ok, start_at, bo_set_filename, bo_set_pos. cbn [bo_pos bo_server_id bo_filename bo_sids fst snd]. rewrite Hsids. cbn [gtids map gtid_set_size].
    change (2 ^ 32) with 4294967296 in B2. change (2 ^ 64) with 18446744073709551616. split; [lia|]. split; [exact Hid|]. split; [exact B1|].
    split; [constructor|reflexivity]. }
  destruct Hserve as (pos' & es' & after' & d & m1 & m2 & sent & stop & St' & De & H1 & H2 & Fe & Sp & ->).
  change (m1 :: m2 :: map (event_message crc sum) sent ++ stop) with ([m1; m2] ++ map (event_message crc sum) sent ++ stop) in Hw.
  rewrite app_assoc in Hw. destruct (messages_wire_app _ _ _ Hw) as (w1 & w2 & W1 & W2 & Ew).
  pose proof (request_ok (c_cap c) checks (start_at o at_) uuid random_id slave_id master_id algorithm mode qs ans m1 d m2 Hsl Hsl' Hu Hhb Oo
      (fun _ => B2) Hset sum Halg H1 H2) as K.
  destruct (K c2 w2 eq_refl Hacc ltac:(exists w1; rewrite Dw; auto)) as (c2' & cmds & K1 & K2 & K3 & K4 & _). clear K.
  rewrite K1 in Ag. destruct Ag as [(G1 & G2 & G3)|(G1 & _ & G2)]; cbn [fst snd] in *.
  - subst r. assert (Em : asked = at_).
    { apply Forall2_app_inv_l in K3 as (q1 & q2 & _ & K3 & ->). inversion K3 as [|? m ? q3 Km Kn]; subst.
      symmetry. apply (Hask (q1 ++ m :: q3) m).
      - destruct K2 as (wc & C1 & C2). exists wc. split; [exact C1|]. pose proof (read_events_out _ _ _ _ _ _ _ _ E) as (_ & So & _).
        destruct G2 as (_ & _ & _ & Ao & _). subst c2. cbn [c_out] in *. congruence.
      - apply in_or_app. right. left. reflexivity.
      - destruct at_ as [name p]. cbn [fst snd] in *. unfold expected_dump in Km. cbn in Km. rewrite Hsids in Km.
        match type of Km with asks _ (if ?b then _ else _) _ => destruct b end; [right|left]; cbn [fst snd]; eauto. }
    subst asked. destruct (stands_unique _ _ _ _ _ _ _ _ _ OK St St') as (<- & <- & <-).
    destruct (feed_flow sum files OK _ _ _ _ _ Fe _ (stands_within _ _ _ _ _ St)) as [Fl _].
    apply (reads sum files OK crc (mk_stream (described_parser d) (bo_validate (start_at o at_)) false (bo_non_block (start_at o at_))) Hcrc eq_refl (described_sum sum files _ d OK De) n at_ pos es after sent left stop lost c1 c2' events at1 c' St Fl (conj G2 G3) Sp); [|exact E].
    exists w2. rewrite app_nil_r. auto.
  - subst r. injection E as <- <- <-. exists [], (es ++ log_events after). split; [reflexivity|]. split; [reflexivity|]. split; [exists pos, es, after; auto|].
    intros L _. destruct (G2 L) as [K _]. discriminate K.
Qed.

Lemma history_exact x : setting_ok x -> forall at_ runs at1, history x at_ runs at1 -> forall todo, to_come (st_log x) at_ todo ->
  exists t1 t2, todo = t1 ++ t2 /\ filter wanted (concat runs) = reported (st_sum x) t1 /\ to_come (st_log x) at1 t2.
Proof.
  intros OK at_ runs at1. induction 1 as [at_|at_ uuid rid n c events at1 c' left lost runs at2 E S H IH]; intros todo T.
  - exists [], todo. auto.
  - destruct (session_step _ _ _ _ _ _ _ _ _ _ _ _ OK T E S) as (t1 & t2 & -> & E2 & T2 & _).
    destruct (IH _ T2) as (u1 & u2 & -> & E3 & T3). exists (t1 ++ u1), u2. split; [apply app_assoc|]. split; [|exact T3].
    cbn [concat]. rewrite filter_app, E2, E3. symmetry.
    apply (reported_app (mk_stream (mk_parser [] (st_sum x)) false false false)).
Qed.

(** ** a file whose events carry checksums after one whose events do not, or the other way round *)
Definition with_body (e : log_event) (b : bytes) : log_event :=
  mk_log_event (le_timestamp e) (le_code e) (le_server_id e) (le_next_pos e) (le_flags e) b.
Lemma front_trailer e b t : le_body e = b ++ t -> length t = 4%nat -> event_front false e = event_front true (with_body e b) ++ t.
Proof.
  intros E L. unfold event_front, with_body. cbn [le_timestamp le_code le_server_id le_next_pos le_flags le_body]. rewrite E, app_assoc. f_equal. f_equal. f_equal.
  unfold event_size. cbn [le_body]. rewrite E, app_length, L. lia.
Qed.
Lemma with_body_ok e b t : le_body e = b ++ t -> length t = 4%nat -> log_event_ok false e -> log_event_ok true (with_body e b).
Proof.
  intros E L (H1 & H2 & H3 & H4 & H5 & H6). unfold log_event_ok, with_body, event_size in *. cbn [le_timestamp le_code le_server_id le_next_pos le_flags le_body]. rewrite E, app_length, L in H4.
  splits; try assumption. lia.
Qed.
Lemma some_eq {A} (a b : A) : Some a = Some b -> a = b.
Proof. congruence. Qed.
Lemma parsed_with_body e b t v : le_body e = b ++ t -> length t = 4%nat -> parsed false e = Some v ->
  parsed true (with_body e b) = Some (mk_event (ev_kind v) (ev_header v) b).
Proof.
  intros E L. unfold parsed, header_for, with_body, event_size. cbn [le_timestamp le_code le_server_id le_next_pos le_flags le_body]. rewrite E, app_length, L.
  destruct (kind_with_code (le_code e)); [|discriminate]. destruct (type_with_code (le_code e)); [|discriminate]. cbn [option_map]. intros V. apply some_eq in V. subst v. cbn [ev_kind ev_header ev_data].
  f_equal. f_equal. f_equal. lia.
Qed.
Lemma next_message crc s p c d r : s_completed s = false -> awaits c [x00 :: p] d ->
  fst (parse_event crc (s_pv4 s) (s_validate s) p) = r -> match r with Ok None => False | _ => True end ->
  exists c', next_event crc s c = (r, c').
Proof.
  intros Hopen A P R. destruct (awaits_cons _ _ _ _ A) as (c1 & E1 & _). exists c1. unfold next_event. rewrite Hopen.
  cbn [next_event_loop]. unfold recv_and_parse_event. unfold ibind at 1. rewrite (ibind_ok _ _ _ _ _ E1).
  change (b2n x00 =? 254) with false. rewrite andb_false_r. change (negb (b2n x00 =? 0)) with false. cbv iota.
  unfold parse, ibind. destruct (parse_event _ _ _ p) as [r' rest]. cbn [fst] in P. subst r'. destruct r as [[o|]| | |]; try reflexivity. destruct R.
Qed.
Lemma checksum_off crc s e b t v c d : s_completed s = false -> p_checksum (s_pv4 s) = true -> s_validate s = false ->
  log_event_ok false e -> parsed false e = Some v -> le_body e = b ++ t -> length t = 4%nat ->
  awaits c [event_message crc false e] d ->
  exists c', next_event crc s c = (Ok (Some (mk_event (ev_kind v) (ev_header v) b)), c').
Proof.
  intros H1 H2 H3 O P E L A. apply (next_message crc s (stored crc false e) c d _ H1 A); [|exact I]. unfold stored. rewrite app_nil_r, H3.
  rewrite (front_trailer e b t E L), <- (parsed_with_body e b t v E L P).
  pose proof (parse_any_trailer crc (s_pv4 s) (with_body e b) t []) as K. rewrite H2, app_nil_r in K. rewrite K; [reflexivity| |exact L].
  apply (with_body_ok e b t); assumption.
Qed.
Lemma checksum_off_bad crc s e b t c d : s_completed s = false -> p_checksum (s_pv4 s) = true -> s_validate s = true ->
  log_event_ok false e -> le_body e = b ++ wle 4 t -> t < 2 ^ 32 -> t <> crc (event_front true (with_body e b)) ->
  awaits c [event_message crc false e] d ->
  exists c', next_event crc s c = (Err (EChecksum t (crc (event_front true (with_body e b)))), c').
Proof.
  intros H1 H2 H3 O E T N A. apply (next_message crc s (stored crc false e) c d _ H1 A); [|exact I]. unfold stored. rewrite app_nil_r, H3.
  rewrite (front_trailer e b (wle 4 t) E (wle_length _ _)).
  pose proof (parse_bad_checksum crc (s_pv4 s) (with_body e b) t [] H2 (with_body_ok e b (wle 4 t) E (wle_length _ _) O) T N) as K. rewrite app_nil_r in K. rewrite K. reflexivity.
Qed.
Lemma checksum_off_panic crc s e c d : s_completed s = false -> p_checksum (s_pv4 s) = true -> s_validate s = false ->
  log_event_ok false e -> (length (le_body e) < 4)%nat ->
  awaits c [event_message crc false e] d -> exists c', next_event crc s c = (Panic PArith, c').
Proof.
  intros H1 H2 H3 O L A. apply (next_message crc s (stored crc false e) c d _ H1 A); [|exact I]. unfold stored. rewrite app_nil_r, H3.
  unfold event_front. rewrite <- (app_nil_r (le_body e)). destruct O as (O1 & O2 & O3 & O4 & O5 & O6).
  apply parse_short; [unfold header_fields_ok; splits; try assumption; lia|exact O2|]. right. unfold event_size. split; [exact H2|]. split; lia.
Qed.
Lemma checksum_on crc s e v c d : s_completed s = false -> p_checksum (s_pv4 s) = false ->
  log_event_ok true e -> parsed true e = Some v -> awaits c [event_message crc true e] d ->
  exists c', next_event crc s c = (Ok (Some (mk_event (ev_kind v) (ev_header v) (ev_data v ++ wle 4 (crc (event_front true e))))), c').
Proof.
  intros H1 H2 O P A. apply (next_message crc s (stored crc true e) c d _ H1 A); [|exact I]. unfold stored. set (t := wle 4 _).
  assert (L : length t = 4%nat) by apply wle_length. set (e2 := with_body e (le_body e ++ t)).
  assert (E : with_body e2 (le_body e) = e) by (destruct e; reflexivity).
  pose proof (front_trailer e2 (le_body e) t eq_refl L) as F. rewrite E in F. rewrite <- F.
  assert (O2 : log_event_ok false e2).
  { destruct O as (O1 & O2 & O3 & O4 & O5 & O6). unfold log_event_ok, e2, event_size, with_body in *. cbn [le_timestamp le_code le_server_id le_next_pos le_flags le_body]. rewrite app_length, L. splits; try assumption. lia. }
  assert (P2 : parsed false e2 = Some (mk_event (ev_kind v) (ev_header v) (ev_data v ++ t))).
  { revert P. unfold parsed, header_for, e2, with_body, event_size. cbn [le_timestamp le_code le_server_id le_next_pos le_flags le_body]. rewrite app_length, L.
    destruct (kind_with_code (le_code e)); [|discriminate]. destruct (type_with_code (le_code e)); [|discriminate]. cbn [option_map]. intros V. apply some_eq in V. subst v. cbn [ev_kind ev_header ev_data].
    f_equal. f_equal. f_equal. lia. }
  pose proof (parse_any_trailer crc (s_pv4 s) e2 [] []) as K. rewrite H2, !app_nil_r in K. unfold parse_event in *. rewrite H2 in *. cbn [andb] in *. rewrite K; [|exact O2|reflexivity]. rewrite P2. reflexivity.
Qed.

(** ** the messages in what was sent (for the examples) *)
Fixpoint frames (fuel : nat) (w : bytes) : option (list bytes) :=
  match fuel, w with
  | _, [] => Some []
  | S fuel, a :: b :: c :: _ :: rest =>
      let n := N.to_nat (le_val [a; b; c]) in
      if (le_val [a; b; c] <? full) && (n <=? length rest)%nat
      then option_map (cons (firstn n rest)) (frames fuel (skipn n rest)) else None
  | _, _ => None
  end.
Lemma frames_only fuel : forall w l sent, frames fuel w = Some l -> commands_wire sent w -> sent = l.
Proof.
  assert (Head : forall s p (w1 ws : bytes), packet_wire s p w1 -> exists a b c, w1 ++ ws = a :: b :: c :: s :: p ++ ws /\ le_val [a; b; c] = N.of_nat (length p)).
  { intros s p w1 ws (l & [L V] & ->). destruct l as [|a [|b [|c [|]]]]; try discriminate L. exists a, b, c. split; [reflexivity|exact V]. }
  assert (Empty : forall sent, commands_wire sent [] -> sent = []).
  { intros sent H. remember [] as w eqn:E. destruct H as [|p w1 ps ws seqs M _ _]; [reflexivity|]. apply app_eq_nil in E as [-> _].
    assert (M' : exists s q w', packet_wire s q w' /\ exists y : bytes, [] = w' ++ y).
    { inversion M as [s q w' _ K|s q w' ? ? w2 _ K _]; subst; [exists s, p, []; split; [exact K|exists []; reflexivity]|exists s, q, w'; split; [exact K|eauto]]. }
    destruct M' as (s & q & w' & K & y & E). destruct (Head s q w' y K) as (a & b & c & E' & _). rewrite <- E in E'. discriminate E'. }
  induction fuel as [|fuel IH]; intros w l sent F H.
  - destruct w; [|discriminate F]. injection F as <-. apply Empty. exact H.
  - destruct w as [|x w]; [injection F as <-; apply Empty; exact H|]. inversion H as [|p w1 ps ws seqs M _ H' E0 E1]. subst sent.
    inversion M as [s q w' L K|s q w' seqs' q' w2 L K M']; subst.
    + destruct (Head s p w1 ws K) as (a & b & c & E & V). rewrite E in E1. injection E1 as <- <-. cbn [frames] in F. rewrite V, Nat2N.id in F.
      destruct (_ && _)%bool in F; [|discriminate F]. rewrite firstn_app, firstn_all, Nat.sub_diag, app_nil_r in F.
      rewrite skipn_app, skipn_all, Nat.sub_diag in F. cbn [firstn skipn app] in F.
      destruct (frames fuel ws) as [l'|] eqn:F'; [|discriminate F]. injection F as <-. f_equal. apply (IH ws); assumption.
    + rewrite <- app_assoc in E1. destruct (Head s q w' (w2 ++ ws) K) as (a & b & c & E & V). rewrite E in E1. injection E1 as <- <-. cbn [frames] in F. rewrite V, Nat2N.id in F.
      assert (E2 : (N.of_nat (length q) <? full) = false) by (apply N.ltb_ge; rewrite <- L; lia). rewrite E2 in F. discriminate F.
Qed.
