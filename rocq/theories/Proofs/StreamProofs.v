(** Proofs about binlog streams *)
From Coq Require Import Strings.String.
From Verif Require Import Model.Base Model.BytesParser Model.LenEnc Model.Utf8 Model.Flags Model.Packet
  Model.Conn Model.Auth Model.Cmd Model.Col Model.Row Model.Stmt Model.Extract Model.Session Model.Event Model.EventBody Model.Stream
  Spec.Nums Spec.Codec Spec.LenEncSpec Spec.Wire Spec.Packets Spec.Values Spec.Framing Spec.Session Spec.Commands
  Spec.Execute Spec.ExtractSpec Spec.AuthSpec Spec.ResultSets Spec.BinlogSpec Spec.StreamSpec
  Proofs.BaseLemmas Proofs.BytesParserProofs Proofs.CodecProofs Proofs.LenEncProofs Proofs.WireLemmas
  Proofs.ConnProofs Proofs.PacketProofs Proofs.CmdProofs Proofs.ValueProofs Proofs.AuthProofs Proofs.ExecuteProofs
  Proofs.ExtractProofs Proofs.SessionProofs Proofs.CommandProofs Proofs.EventProofs Proofs.EventBodyProofs.
Open Scope N_scope.

(** ** pulling events *)
Section Pulls.
  Variables (crc : bytes -> N) (s : binlog_stream).
  Hypothesis Hcrc : forall bs, crc bs < 2 ^ 32.
  Let sum := p_checksum (s_pv4 s).

  Lemma recv_event e ps d c : log_event_ok sum e -> awaits c (event_message crc sum e :: ps) d ->
    exists c1, recv_and_parse_event crc s c =
      (Ok (match parsed sum e with Some v => SeSingle v | None => SeUnsupported end), c1) /\
      awaits c1 ps d /\ same_but_read c c1.
  Proof.
    intros He Ha. destruct (awaits_cons _ _ _ _ Ha) as (c1 & E1 & A1 & S1). exists c1. split; [|auto].
    unfold recv_and_parse_event. rewrite (ibind_ok _ _ _ _ _ E1). unfold event_message.
    change (b2n x00 =? 254) with false. rewrite andb_false_r. change (negb (b2n x00 =? 0)) with false. cbv iota.
    unfold parse. rewrite <- (app_nil_r (stored crc sum e)).
    unfold sum. rewrite (parse_stored crc (s_pv4 s) (s_validate s) e [] Hcrc He). reflexivity.
  Qed.
  (** [us] unsupported, then a message on which [recv_and_parse_event] yields a result *)
  Lemma loop_skips us : Forall (log_event_ok sum) us -> reported sum us = [] ->
    forall fuel ps d c, awaits c (map (event_message crc sum) us ++ ps) d -> (length us < fuel)%nat ->
    exists c1 fuel', next_event_loop crc fuel s c = next_event_loop crc (S fuel') s c1 /\ awaits c1 ps d /\ same_but_read c c1.
  Proof.
    induction 1 as [|u us Hu H IH]; intros R fuel ps d c Ha L.
    - exists c. destruct fuel as [|fuel]; [cbn [length] in L; lia|]. exists fuel. splits; auto using sbr_refl.
    - cbn [map app] in Ha. cbn [reported] in R. destruct (parsed sum u) eqn:P; [discriminate|].
      destruct (recv_event u _ d c Hu Ha) as (c1 & E1 & A1 & S1). rewrite P in E1.
      destruct fuel as [|fuel]; [cbn [length] in L; lia|]. cbn [next_event_loop]. rewrite (ibind_ok _ _ _ _ _ E1).
      destruct (IH R fuel ps d c1 A1 ltac:(cbn [length] in L; lia)) as (c2 & f & E2 & A2 & S2).
      exists c2, f. splits; eauto using sbr_trans.
  Qed.
  Lemma reported_app es1 es2 : reported sum (es1 ++ es2) = reported sum es1 ++ reported sum es2.
  Proof. induction es1 as [|e es IH]; [reflexivity|]. cbn [app reported]. rewrite IH. destruct (parsed sum e); reflexivity. Qed.
  Lemma first_reported es : Forall (log_event_ok sum) es ->
    reported sum es = [] \/
    exists us e v es', es = us ++ e :: es' /\ reported sum us = [] /\ parsed sum e = Some v /\
      Forall (log_event_ok sum) us /\ log_event_ok sum e /\ Forall (log_event_ok sum) es'.
  Proof.
    induction 1 as [|e es He H IH]; [left; reflexivity|]. cbn [reported]. destruct (parsed sum e) as [v|] eqn:P.
    - right. exists [], e, v, es. splits; auto.
    - destruct IH as [R|(us & e' & v & es' & -> & R & P' & F1 & F2 & F3)]; [left; exact R|right].
      exists (e :: us), e', v, es'. cbn [reported]. rewrite P. splits; auto.
  Qed.
  Lemma fuel_of c us ps d : awaits c (map (event_message crc sum) us ++ ps) d -> (length us < S (sched_len (c_rd c)))%nat.
  Proof. intros H. apply awaits_fuel in H. rewrite app_length, map_length in H. lia. Qed.
  Hypothesis Hopen : s_completed s = false.

  Lemma next_single us e v ps d c : Forall (log_event_ok sum) us -> reported sum us = [] -> log_event_ok sum e ->
    parsed sum e = Some v -> awaits c (map (event_message crc sum) (us ++ [e]) ++ ps) d ->
    exists c1, next_event crc s c = (Ok (Some v), c1) /\ awaits c1 ps d /\ same_but_read c c1.
  Proof.
    intros Hu R He P Ha. rewrite map_app, <- app_assoc in Ha. unfold next_event. rewrite Hopen.
    destruct (loop_skips us Hu R _ _ d c Ha (fuel_of _ _ _ _ Ha)) as (c1 & f & E1 & A1 & S1). rewrite E1.
    cbn [map app] in A1. destruct (recv_event e _ d c1 He A1) as (c2 & E2 & A2 & S2). rewrite P in E2.
    exists c2. cbn [next_event_loop]. rewrite (ibind_ok _ _ _ _ _ E2). splits; eauto using sbr_trans.
  Qed.
  Lemma next_tail us ps d c r : Forall (log_event_ok sum) us -> reported sum us = [] ->
    awaits c (map (event_message crc sum) us ++ ps) d ->
    (forall c1, awaits c1 ps d -> same_but_read c c1 -> exists c2, recv_and_parse_event crc s c1 = (r, c2)) ->
    match r with Ok SeUnsupported => False | _ => True end ->
    exists c1 c2, awaits c1 ps d /\ same_but_read c c1 /\ recv_and_parse_event crc s c1 = (r, c2) /\
      next_event crc s c =
      (match r with Ok (SeSingle v) => Ok (Some v) | Ok SeEnd => Ok None | Ok _ => Loop | Err e => Err e | Panic p => Panic p | Loop => Loop end, c2).
  Proof.
    intros Hu R Ha H Hr. unfold next_event. rewrite Hopen.
    destruct (loop_skips us Hu R _ _ d c Ha (fuel_of _ _ _ _ Ha)) as (c1 & f & E1 & A1 & S1). rewrite E1.
    destruct (H c1 A1 S1) as (c2 & E2). exists c1, c2. splits; auto.
    cbn [next_event_loop]. unfold ibind. rewrite E2. destruct r as [[v| |]|e|p|]; try reflexivity; contradiction.
  Qed.

  Lemma pulls_events n : forall es ps d c, Forall (log_event_ok sum) es -> (n <= length (reported sum es))%nat ->
    awaits c (map (event_message crc sum) es ++ ps) d ->
    exists es1 es2 c', es = es1 ++ es2 /\ length (reported sum es1) = n /\
      io_pulls (next_event crc s) n c = (returned (reported sum es1), c') /\
      awaits c' (map (event_message crc sum) es2 ++ ps) d /\ same_but_read c c'.
  Proof.
    induction n as [|n IH]; intros es ps d c He L Ha.
    - exists [], es, c. splits; auto using sbr_refl.
    - destruct (first_reported es He) as [R|(us & e & v & es' & -> & R & P & F1 & F2 & F3)]; [rewrite R in L; cbn [length] in L; lia|].
      assert (Q : us ++ e :: es' = (us ++ [e]) ++ es') by (rewrite <- app_assoc; reflexivity).
      rewrite Q, map_app, <- app_assoc in Ha.
      destruct (next_single us e v _ d c F1 R F2 P Ha) as (c1 & E1 & A1 & S1).
      assert (R1 : reported sum (us ++ [e]) = [v]) by (rewrite reported_app, R; cbn [reported]; rewrite P; reflexivity).
      rewrite Q, reported_app, R1 in L. cbn [app length] in L.
      destruct (IH es' ps d c1 F3 ltac:(lia) A1) as (es1 & es2 & c2 & -> & L2 & E2 & A2 & S2).
      exists ((us ++ [e]) ++ es1), es2, c2. splits.
      + rewrite Q, app_assoc. reflexivity.
      + rewrite reported_app, R1. cbn [app length]. lia.
      + cbn [io_pulls]. rewrite E1, E2, reported_app, R1. reflexivity.
      + exact A2.
      + eauto using sbr_trans.
  Qed.
  Lemma pulls_app {A} (m : io A) a : forall b c, io_pulls m (a + b) c =
    let '(l1, c1) := io_pulls m a c in let '(l2, c2) := io_pulls m b c1 in (l1 ++ l2, c2).
  Proof.
    induction a as [|a IH]; intros b c.
    - cbn [Nat.add io_pulls app]. destruct (io_pulls m b c); reflexivity.
    - cbn [Nat.add io_pulls]. destruct (m c) as [r c1]. rewrite IH. destruct (io_pulls m a c1) as [l1 c2].
      destruct (io_pulls m b c2); reflexivity.
  Qed.
  (** all events, then a message that ends or breaks the stream *)
  Lemma pulls_then es ps d c r : Forall (log_event_ok sum) es ->
    awaits c (map (event_message crc sum) es ++ ps) d ->
    (forall c1, awaits c1 ps d -> same_but_read c c1 -> exists c2, recv_and_parse_event crc s c1 = (r, c2)) ->
    match r with Ok SeEnd | Err _ => True | _ => False end ->
    exists c1 c2, awaits c1 ps d /\ same_but_read c c1 /\ recv_and_parse_event crc s c1 = (r, c2) /\
      io_pulls (next_event crc s) (S (length (reported sum es))) c =
      (returned (reported sum es) ++ [match r with Err e => Err e | _ => Ok None end], c2).
  Proof.
    intros He Ha H Hr. replace (S (length (reported sum es))) with (length (reported sum es) + 1)%nat by lia.
    destruct (pulls_events _ es ps d c He (Nat.le_refl _) Ha) as (es1 & es2 & c1 & -> & L & E1 & A1 & S1).
    assert (R2 : reported sum es2 = []).
    { rewrite reported_app, app_length in L. destruct (reported sum es2); [reflexivity|cbn [length] in L; lia]. }
    apply Forall_app in He. destruct He as [_ He2].
    destruct (next_tail es2 ps d c1 r He2 R2 A1) as (c2 & c3 & A2 & S2 & E2 & E3).
    { intros c2 A2 S2. apply H; eauto using sbr_trans. } { destruct r as [[]| | |]; auto. }
    exists c2, c3. splits; eauto using sbr_trans.
    rewrite pulls_app, E1. cbn [io_pulls]. rewrite E3. rewrite reported_app, R2, app_nil_r.
    destruct r as [[]| | |]; try contradiction; reflexivity.
  Qed.
End Pulls.

Lemma stream_events crc s es ps d c n : (forall bs, crc bs < 2 ^ 32) -> s_completed s = false ->
  let sum := p_checksum (s_pv4 s) in
  Forall (log_event_ok sum) es -> (n <= length (reported sum es))%nat ->
  awaits c (map (event_message crc sum) es ++ ps) d ->
  exists es1 es2 c', es = es1 ++ es2 /\ length (reported sum es1) = n /\
    io_pulls (next_event crc s) n c = (returned (reported sum es1), c') /\
    awaits c' (map (event_message crc sum) es2 ++ ps) d /\ same_but_read c c'.
Proof. intros Hc Ho sum He L Ha. apply (pulls_events crc s Hc Ho n es ps d c He L Ha). Qed.

Lemma recv_end crc s m d c : s_non_block s = true -> (exists rest, m = xfe :: rest) -> awaits c [m] d ->
  exists c', recv_and_parse_event crc s c = (Ok SeEnd, c') /\ delivered (c_rd c') = d /\ same_but_read c c'.
Proof.
  intros Hn (rest & ->) Ha. destruct (awaits_cons _ _ _ _ Ha) as (c1 & E1 & A1 & S1). exists c1.
  unfold recv_and_parse_event. rewrite (ibind_ok _ _ _ _ _ E1), Hn. splits; auto using awaits_nil.
Qed.
Lemma stream_end crc s es m d c : (forall bs, crc bs < 2 ^ 32) -> s_completed s = false -> s_non_block s = true ->
  let sum := p_checksum (s_pv4 s) in
  Forall (log_event_ok sum) es -> eof_message (c_cap c) m ->
  awaits c (map (event_message crc sum) es ++ [m]) d ->
  exists c', io_pulls (next_event crc s) (S (length (reported sum es))) c = (returned (reported sum es) ++ [Ok None], c') /\
    delivered (c_rd c') = d /\ same_but_read c c'.
Proof.
  intros Hc Ho Hn sum He Hm Ha. pose proof (eof_message_head _ _ Hm) as Hh.
  destruct (pulls_then crc s Hc Ho es [m] d c (Ok SeEnd) He Ha) as (c1 & c2 & A1 & S1 & E1 & E2); [|exact I|].
  - intros c1 A1 S1. destruct (recv_end crc s m d c1 Hn Hh A1) as (c2 & E & _). eauto.
  - exists c2. destruct (recv_end crc s m d c1 Hn Hh A1) as (c2' & E & D & S). rewrite E in E1. injection E1 as <-.
    splits; eauto using sbr_trans.
Qed.
Lemma next_nothing crc s c d : s_completed s = false -> awaits c [] d -> no_message d ->
  exists c', recv_and_parse_event crc s c = (Err EIO, c').
Proof.
  intros Ho Ha Hn. destruct (recv_nothing c d Ha Hn) as (c' & E). exists c'.
  unfold recv_and_parse_event, ibind. rewrite E. reflexivity.
Qed.
Lemma stream_end_again crc s es m d c : (forall bs, crc bs < 2 ^ 32) -> s_completed s = false -> s_non_block s = true ->
  let sum := p_checksum (s_pv4 s) in
  Forall (log_event_ok sum) es -> eof_message (c_cap c) m -> no_message d ->
  awaits c (map (event_message crc sum) es ++ [m]) d ->
  exists c', io_pulls (next_event crc s) (S (S (length (reported sum es)))) c =
    (returned (reported sum es) ++ [Ok None; Err EIO], c').
Proof.
  intros Hc Ho Hn sum He Hm Hd Ha. destruct (stream_end crc s es m d c Hc Ho Hn He Hm Ha) as (c1 & E1 & D1 & S1).
  fold sum in E1. replace (S (S (length (reported sum es)))) with (S (length (reported sum es)) + 1)%nat by lia.
  rewrite pulls_app, E1. assert (A1 : awaits c1 [] d) by (exists []; split; [constructor|exact D1]).
  destruct (next_nothing crc s c1 d Ho A1 Hd) as (c2 & E2). exists c2. cbn [io_pulls].
  assert (E3 : next_event crc s c1 = (Err EIO, c2)).
  { unfold next_event. rewrite Ho. cbn [next_event_loop]. unfold ibind at 1. rewrite E2. reflexivity. }
  rewrite E3, <- app_assoc. reflexivity.
Qed.
Lemma stream_cut crc s es d c : (forall bs, crc bs < 2 ^ 32) -> s_completed s = false ->
  let sum := p_checksum (s_pv4 s) in
  Forall (log_event_ok sum) es -> no_message d -> awaits c (map (event_message crc sum) es) d ->
  exists c', io_pulls (next_event crc s) (S (length (reported sum es))) c = (returned (reported sum es) ++ [Err EIO], c').
Proof.
  intros Hc Ho sum He Hd Ha. rewrite <- (app_nil_r (map _ es)) in Ha.
  destruct (pulls_then crc s Hc Ho es [] d c (Err EIO) He Ha) as (c1 & c2 & A1 & S1 & E1 & E2); [|exact I|eauto].
  intros c1 A1 _. apply (next_nothing crc s c1 d Ho A1 Hd).
Qed.
Lemma stream_break crc s es m d c e : (forall bs, crc bs < 2 ^ 32) -> s_completed s = false ->
  let sum := p_checksum (s_pv4 s) in
  Forall (log_event_ok sum) es -> awaits c (map (event_message crc sum) es ++ [m]) d ->
  match m with
  | [] => e = EIncomplete None
  | b :: rest => b <> x00 /\ (b = xfe -> s_non_block s = false) /\ e = EPacket \/
                 b = x00 /\ fst (parse_event crc (s_pv4 s) (s_validate s) rest) = Err e
  end ->
  exists c', io_pulls (next_event crc s) (S (length (reported sum es))) c = (returned (reported sum es) ++ [Err e], c').
Proof.
  intros Hc Ho sum He Ha Hm.
  destruct (pulls_then crc s Hc Ho es [m] d c (Err e) He Ha) as (c1 & c2 & A1 & S1 & E1 & E2); [|exact I|eauto].
  intros c1 A1 _. destruct (awaits_cons _ _ _ _ A1) as (c2 & E2 & A2 & S2). exists c2.
  unfold recv_and_parse_event. rewrite (ibind_ok _ _ _ _ _ E2).
  destruct m as [|b rest]; [subst e; reflexivity|]. destruct Hm as [(N0 & Nfe & ->)|(-> & P)].
  - assert (B0 : (b2n b =? 0) = false) by (apply N.eqb_neq; intros Q; apply N0; apply b2n_inj; rewrite Q; reflexivity).
    rewrite B0. destruct (N.eqb_spec (b2n b) 254) as [Q|Q].
    + rewrite Nfe; [reflexivity|]. apply b2n_inj. rewrite Q. reflexivity.
    + rewrite andb_false_r. reflexivity.
  - change (b2n x00 =? 254) with false. rewrite andb_false_r. change (negb (b2n x00 =? 0)) with false. cbv iota.
    unfold parse. rewrite P. reflexivity.
Qed.
Lemma stream_broken crc s es b rest d c : (forall bs, crc bs < 2 ^ 32) -> s_completed s = false ->
  let sum := p_checksum (s_pv4 s) in
  Forall (log_event_ok sum) es -> awaits c (map (event_message crc sum) es ++ [b :: rest]) d ->
  b <> x00 -> (b = xfe -> s_non_block s = false) ->
  exists c', io_pulls (next_event crc s) (S (length (reported sum es))) c = (returned (reported sum es) ++ [Err EPacket], c').
Proof. intros Hc Ho sum He Ha Hb Hf. apply (stream_break crc s es (b :: rest) d c EPacket Hc Ho He Ha). auto. Qed.
Lemma stream_checksum crc s es e trailer d c : (forall bs, crc bs < 2 ^ 32) -> s_completed s = false ->
  p_checksum (s_pv4 s) = true -> s_validate s = true ->
  Forall (log_event_ok true) es -> log_event_ok true e -> trailer < 2 ^ 32 -> trailer <> crc (event_front true e) ->
  awaits c (map (event_message crc true) es ++ [x00 :: event_front true e ++ wle 4 trailer]) d ->
  exists c', io_pulls (next_event crc s) (S (length (reported true es))) c =
    (returned (reported true es) ++ [Err (EChecksum trailer (crc (event_front true e)))], c').
Proof.
  intros Hc Ho Hs Hv He H1 H2 H3 Ha. rewrite <- Hs in He, Ha at 1.
  pose proof (stream_break crc s es _ d c (EChecksum trailer (crc (event_front true e))) Hc Ho He Ha) as H.
  cbv zeta in H. rewrite Hs in H. apply H. right. split; [reflexivity|]. rewrite Hv.
  pose proof (parse_bad_checksum crc (s_pv4 s) e trailer [] Hs H1 H2 H3) as P. rewrite app_nil_r in P. rewrite P. reflexivity.
Qed.
Lemma stream_completed crc s n c : s_completed s = true -> io_pulls (next_event crc s) n c = (repeat (Ok None) n, c).
Proof.
  intros H. induction n as [|n IH]; [reflexivity|]. cbn [io_pulls repeat]. unfold next_event at 1. rewrite H, IH. reflexivity.
Qed.

(** ** requesting a stream *)
Lemma get_req_conv {V} cap checks (from_col : option bytes -> res (option V)) name missing value v a :
  (length name <= 100)%nat -> variable_answer cap value a -> from_col (Some value) = Ok (Some v) ->
  conversation cap (get_required checks (non_null from_col) name missing) (get_requests cap name) a (Ok v).
Proof.
  intros Hn (defs & nm & more & rows & hd & ms & last & Hd & Hh & Hr & Hl & ->) Hv.
  unfold get_required, get_requests. rewrite <- (app_nil_r [_]). rewrite <- (app_nil_r (hd ++ ms ++ [last])).
  eapply (conv_bind cap _ _ _ _ _ _ (Some v)).
  - pose proof (get_var_spec V cap checks (non_null from_col) name true defs ((nm :: Some value :: more) :: rows) hd ms last) as H. cbv zeta in H.
    assert (Q : rmap Some (non_null from_col (nth 1 (nm :: Some value :: more) None)) = Ok (Some v)).
    { cbn [nth]. unfold non_null. rewrite Hv. reflexivity. }
    cbv beta iota in H. rewrite Q in H. apply H; auto.
    + right. rewrite !app_length. change (2 ^ 31) with 2147483648. cbn [length str String.length]. 
      assert (L1 : length (str "SHOW GLOBAL VARIABLES LIKE '") = 28%nat) by reflexivity. rewrite L1. cbn. lia.
    + intros row rows' Q'. injection Q' as <- <-. cbn [length]. lia.
  - intros c d Hc Ha Hw. exists c, []. splits; auto using awaits_nil. exists []. split; [constructor|]. rewrite app_nil_r. reflexivity.
Qed.

Lemma conv_ret {A} cap (v : res A) (m : io A) : (forall c, m c = (v, c)) -> conversation cap m [] [] v.
Proof.
  intros H c d Hc Ha Hw. exists c, []. splits; auto using awaits_nil. exists []. split; [constructor|]. rewrite app_nil_r. reflexivity.
Qed.
Lemma get_missing_conv {V} cap checks (from_col : option bytes -> res (option V)) name missing a :
  (length name <= 100)%nat -> variable_missing cap a ->
  conversation cap (get_required checks (non_null from_col) name missing) (get_requests cap name) a (Err missing).
Proof.
  intros Hn (defs & hd & last & Hd & Hh & Hl & ->).
  unfold get_required, get_requests. rewrite <- (app_nil_r [_]). rewrite <- (app_nil_r (hd ++ [last])).
  eapply (conv_bind cap _ _ _ _ _ _ None).
  - pose proof (get_var_spec V cap checks (non_null from_col) name true defs [] hd [] last) as H. cbv zeta in H.
    cbn [app] in H. apply H; auto; [|constructor|discriminate].
    right. rewrite !app_length. change (2 ^ 31) with 2147483648.
    assert (L1 : length (str "SHOW GLOBAL VARIABLES LIKE '") = 28%nat) by reflexivity. rewrite L1. cbn. lia.
  - apply conv_ret. reflexivity.
Qed.
Lemma conv_stop {A B} cap (m : io A) (k : A -> io B) q ps e :
  conversation cap m q ps (Err e) -> conversation cap (x <~ m ;; k x) q ps (Err e).
Proof.
  intros H c d Hc Ha Hw. destruct (H c d Hc Ha Hw) as (c' & ms & E & R). exists c', ms. split; [|exact R].
  unfold ibind. rewrite E. reflexivity.
Qed.
Lemma set_user_conv cap checks name id a arg : (length name <= 100)%nat -> set_answer cap id a -> arg_ok arg ->
  (length (write_stmt_execute id [to_col arg]) <= 1000)%nat ->
  conversation cap (conn_set_user_var checks name (to_col arg)) (set_requests cap id name (arg_value arg)) a (Ok tt).
Proof.
  intros Hn (params & warnings & ms & m & Hid & Hw & Hp & Lp & B & Hm & ->) Ha Hl.
  apply (set_user_var_spec cap checks name id params warnings ms arg m (Ok tt)); auto.
  - right. rewrite !app_length. change (2 ^ 31) with 2147483648. assert (L1 : length (str "SET @") = 5%nat) by reflexivity.
    assert (L2 : length (str " = ?") = 4%nat) by reflexivity. rewrite L1, L2. lia.
  - right. change (2 ^ 31) with 2147483648. lia.
Qed.
Lemma conv_app_nil {A} cap (m : io A) q ps r : conversation cap m (q ++ []) (ps ++ []) r -> conversation cap m q ps r.
Proof. rewrite !app_nil_r. auto. Qed.

Lemma exec_u64_len id n : (length (write_stmt_execute id [to_col (AU64 n)]) <= 1000)%nat.
Proof.
  unfold write_stmt_execute. cbn. repeat (rewrite ?app_length, ?to_le_length; cbn). lia.
Qed.

Lemma exec_string_len id s : (length s <= 250)%nat -> (length (write_stmt_execute id [to_col (AString s)]) <= 1000)%nat.
Proof.
  intros H. unfold write_stmt_execute. cbn [to_col sv_is_null map]. cbn.
  repeat (rewrite ?app_length, ?to_le_length; cbn). unfold lei_from, blen.
  destruct (N.leb_spec (N.of_nat (length s)) 251); [|lia]. cbn. lia.
Qed.
Lemma short_str s : (length s <= 250)%nat -> str_ok s.
Proof. unfold str_ok. change (2 ^ 64) with 18446744073709551616. lia. Qed.
Lemma unsigned_u32 n s : unsigned_text n s -> n < 2 ^ 32 -> u32_from_text (Some s) = Ok (Some n).
Proof.
  intros H1 H2. destruct (text_unsigned 32 u32_from_text s) as [H _]; [unfold unsigned_text_targets; auto 20 using in_eq, in_cons|].
  apply H. auto.
Qed.
Lemma string_text s : utf8_valid s = true -> string_from_text (Some s) = Ok (Some s).
Proof. intros H. unfold string_from_text. rewrite utf8_if, H. reflexivity. Qed.

Lemma set_up_conv cap checks o uuid random_id slave_id master_id algorithm mode qs ans q2 ps2 r :
  slave_id = (if bo_server_id o =? 0 then random_id else bo_server_id o) -> slave_id < 2 ^ 32 ->
  length uuid = 36%nat -> bo_heartbeat o < 2 ^ 64 ->
  set_up cap o uuid slave_id master_id algorithm mode qs ans ->
  conversation cap (_ <~ send_msg checks (stream_request mode slave_id o) true ;;
                    recv_stream_start (beqb algorithm (str "CRC32")) o) q2 ps2 r ->
  conversation cap (request_stream checks uuid random_id o) (qs ++ q2) (ans ++ ps2) r.
Proof.
  intros Hslave Hsl Hu Hb Hset Hk.
  destruct Hset as [master_id id_text algorithm mode server_uuid id1 id2 id3 a1 a2 a3 a4 a5 a6 a7 m H1 H2 H3 H3' H4 H5 A1 A2 A3 A4 A5 A6 A7 Hm].
  rewrite <- !app_assoc. unfold request_stream.
  eapply conv_bind; [eapply get_req_conv; [cbn; lia|exact A1|apply (unsigned_u32 master_id); assumption]|].
  rewrite (trunc_id 64 (bo_heartbeat o) Hb).
  eapply conv_bind; [eapply (set_user_conv cap checks _ id1 a2 (AU64 (bo_heartbeat o))); [cbn; lia|exact A2|exact Hb|apply exec_u64_len]|].
  eapply conv_bind; [eapply get_req_conv; [cbn; lia|exact A3|apply string_text; assumption]|].
  eapply conv_bind; [eapply (set_user_conv cap checks _ id2 a4 (AString algorithm)); [cbn; lia|exact A4|apply short_str; assumption|apply exec_string_len; assumption]|].
  eapply conv_bind; [eapply get_req_conv; [cbn; lia|exact A5|apply string_text; assumption]|].
  eapply conv_bind; [eapply get_req_conv; [cbn; lia|exact A6|apply string_text; assumption]|].
  eapply conv_bind; [eapply (set_user_conv cap checks _ id3 a7 (AString uuid)); [cbn; lia|exact A7|apply short_str; lia|apply exec_string_len; lia]|].
  cbv zeta. rewrite <- Hslave.
  eapply conv_bind; [|exact Hk].
  apply conv_send; [apply fits_small| |apply recv_com_ok; exact Hm].
  - reflexivity.
  - unfold asks, register_slave_new. rewrite sr_register_slave_cut; auto; reflexivity.
Qed.

Lemma beqb_true s t : beqb s t = true <-> s = t.
Proof.
  split; [|intros ->; apply beqb_refl]. unfold beqb. revert t. induction s as [|a s IH]; intros [|b t]; cbn; try discriminate; auto.
  intros H. apply andb_true_iff in H. destruct H as [H1 H2]. f_equal; auto. apply Byte.byte_dec_bl. exact H1.
Qed.
Lemma stream_request_asks cap mode slave_id o : options_ok o -> slave_id < 2 ^ 32 ->
  asks cap (if beqb mode (str "ON") then expected_dump true slave_id o
            else expected_dump false slave_id (bo_set_pos (bo_pos o mod 2 ^ 32) o)) (stream_request mode slave_id o).
Proof.
  intros (H1 & H2 & H3 & H4 & H5) Hs. unfold asks, stream_request, expected_dump. destruct (beqb mode (str "ON")).
  - rewrite gtid_request.
    + destruct (bo_sids o); destruct (bo_non_block o); reflexivity.
    + destruct (bo_sids o); destruct (bo_non_block o); reflexivity.
    + destruct (bo_sids o); destruct (bo_non_block o); reflexivity.
    + destruct (bo_sids o); destruct (bo_non_block o); exact Hs.
    + assert (Q : forall x, x < 2 ^ 30 -> x < 2 ^ 32) by (intros x; change (2 ^ 30) with 1073741824; change (2 ^ 32) with 4294967296; lia).
      apply Q. destruct (bo_sids o); destruct (bo_non_block o); exact H3.
    + destruct (bo_sids o); destruct (bo_non_block o); exact H1.
    + destruct (bo_sids o); destruct (bo_non_block o); exact H4.
    + assert (Q : forall x, x < 2 ^ 30 -> x < 2 ^ 32) by (intros x; change (2 ^ 30) with 1073741824; change (2 ^ 32) with 4294967296; lia).
      apply Q. destruct (bo_sids o); destruct (bo_non_block o); exact H5.
  - rewrite dump_request.
    + unfold bo_set_pos. cbn [bo_non_block bo_pos bo_filename]. destruct (bo_non_block o); reflexivity.
    + destruct (bo_non_block o); reflexivity.
    + assert (Q : trunc 32 (bo_pos o) < 2 ^ 32) by (unfold trunc; apply N.mod_lt; discriminate).
      destruct (bo_non_block o); exact Q.
    + destruct (bo_non_block o); reflexivity.
    + destruct (bo_non_block o); exact Hs.
Qed.
Lemma dump_gtid_length d : length (write_binlog_dump_gtid d) = (23 + length (bg_filename d) + length (write_sid_data (bg_sids d)))%nat.
Proof.
  unfold write_binlog_dump_gtid, write_u8, write_le_u16, write_le_u32, write_le_u64, write_bytes.
  rewrite ?app_length, ?to_le_bytes_length. cbn [length]. lia.
Qed.
Lemma dump_length d : length (write_binlog_dump d) = (11 + length (bd_filename d))%nat.
Proof.
  unfold write_binlog_dump, write_u8, write_le_u16, write_le_u32, write_bytes.
  rewrite ?app_length, ?to_le_bytes_length. cbn [length]. lia.
Qed.
Lemma stream_request_fits checks mode slave_id o : options_ok o -> fits checks (stream_request mode slave_id o).
Proof.
  intros (H1 & H2 & H3 & H4 & H5). apply fits_small. change (2 ^ 32 - 2 ^ 25) with 4261412864.
  change (2 ^ 30) with 1073741824 in *. unfold stream_request. destruct (beqb mode (str "ON")).
  - rewrite gtid_set_size_len, <- write_sid_data_length in H5. unfold blen in H5.
    rewrite dump_gtid_length. destruct (bo_non_block o), (bo_sids o); cbn -[write_sid_data N.add N.of_nat] in H5 |- *; lia.
  - rewrite dump_length. destruct (bo_non_block o); cbn -[N.add N.of_nat]; lia.
Qed.

Section Start.
  Variables (cap : N) (sum : bool) (o : binlog_options).
  Lemma rotate_checked m : rotate_message sum m -> exists rest, m = x00 :: rest /\ check_rotate sum rest = Ok tt.
  Proof.
    intros (e & pos & name & trailer & He & Hc & Hb & Hp & Ht & ->). eexists. split; [reflexivity|].
    destruct He as (H1 & H2 & H3 & H4 & H5 & H6). unfold check_rotate, event_front. rewrite <- app_assoc.
    rewrite header_read. 2:{ unfold header_fields_ok. splits; auto. change (2 ^ 8) with 256. lia. }
    rewrite Hc. change (type_with_code 4) with (Some EtRotate). cbn [rbind h_type].
    destruct sum; cbv iota in Ht.
    - rewrite Hb. assert (C : csub (blen ((wle 8 pos ++ name) ++ trailer)) 4 = Ok (blen (wle 8 pos ++ name))).
      { rewrite blen_app. unfold csub, blen. rewrite Ht. destruct (N.ltb_spec (N.of_nat (length (wle 8 pos ++ name)) + N.of_nat 4) 4); [lia|].
        f_equal. lia. }
      rewrite C. cbn [rmap rbind]. unfold split_at, blen. rewrite Nat2N.id. cbn [fst].
      rewrite firstn_app, Nat.sub_diag, firstn_all. cbn [firstn]. rewrite app_nil_r, rotate_read by exact Hp. reflexivity.
    - destruct trailer; [|discriminate]. rewrite app_nil_r, Hb. cbn [rbind]. rewrite rotate_read by exact Hp. reflexivity.
  Qed.
  Lemma start_ok m1 d m2 : rotate_message sum m1 -> description_message d m2 ->
    answers cap (recv_stream_start sum o) [m1; m2]
      (Ok (mk_stream (described_parser d) (bo_validate o) false (bo_non_block o))).
  Proof.
    intros H1 (e & He & Hc & Hd & Hb & ->) c d0 Hcap Ha.
    destruct (rotate_checked m1 H1) as (rest & -> & R).
    destruct (awaits_cons _ _ _ _ Ha) as (c1 & E1 & A1 & S1). destruct (awaits_cons _ _ _ _ A1) as (c2 & E2 & A2 & S2).
    exists c2. unfold recv_stream_start. rewrite (ibind_ok _ _ _ _ _ E1).
    change (b2n x00 =? 255) with false. change (b2n x00 =? 254) with false. change (b2n x00 =? 0) with true. cbv iota.
    erewrite ilift_bind by exact R. unfold recv_fde. rewrite (ibind_ok _ _ _ _ _ E2).
    cbn [read_u8]. change (read_u8 (x00 :: event_front false e)) with (@Ok N 0, event_front false e).
    unfold parse. rewrite <- (app_nil_r (event_front false e)), (open_fde e d [] He Hc Hd Hb). cbn [fst].
    splits; eauto using awaits_nil, sbr_trans.
  Qed.
  Lemma start_eof m : eof_message cap m ->
    answers cap (recv_stream_start sum o) [m] (Ok (mk_stream (mk_parser [] false) (bo_validate o) true (bo_non_block o))).
  Proof.
    intros Hm c d Hcap Ha. destruct (awaits_cons _ _ _ _ Ha) as (c1 & E1 & A1 & S1). exists c1.
    unfold recv_stream_start. rewrite (ibind_ok _ _ _ _ _ E1).
    destruct (eof_message_reads _ _ Hm) as (p & rest & Ep). destruct (eof_message_head _ _ Hm) as (q & Er). rewrite Er in *.
    change (b2n xfe =? 255) with false. change (b2n xfe =? 254) with true. cbv beta iota. rewrite (sbr_cap _ _ S1), Hcap.
    unfold parse. rewrite Ep. splits; auto using awaits_nil.
  Qed.
  Lemma start_err m e : err_message cap m e -> answers cap (recv_stream_start sum o) [m] (Err e).
  Proof.
    intros Hm c d Hcap Ha. destruct (awaits_cons _ _ _ _ Ha) as (c1 & E1 & A1 & S1). exists c1.
    unfold recv_stream_start. rewrite (ibind_ok _ _ _ _ _ E1).
    destruct (err_message_reads _ _ _ Hm) as (p & Ep & Ee). destruct (err_message_head _ _ _ Hm) as (r & Er). rewrite Er in *.
    change (b2n xff =? 255) with true. cbv iota.
    unfold server_error, parse. rewrite (sbr_cap _ _ S1), Hcap, Ep. cbn [fst]. unfold ibind, ilift, ierr. rewrite Ee.
    splits; auto using awaits_nil.
  Qed.
  Lemma start_other e rest : log_event_ok sum e -> le_code e <> 4 ->
    answers cap (recv_stream_start sum o) [x00 :: event_front sum e ++ rest] (Err ECustom).
  Proof.
    intros (H1 & H2 & H3 & H4 & H5 & H6) Hn c d Hcap Ha. destruct (awaits_cons _ _ _ _ Ha) as (c1 & E1 & A1 & S1). exists c1.
    unfold recv_stream_start. rewrite (ibind_ok _ _ _ _ _ E1).
    change (b2n x00 =? 255) with false. change (b2n x00 =? 254) with false. change (b2n x00 =? 0) with true. cbv iota.
    assert (R : check_rotate sum (event_front sum e ++ rest) = Err ECustom).
    { unfold check_rotate, event_front. rewrite <- app_assoc.
      rewrite header_read. 2:{ unfold header_fields_ok. splits; auto. change (2 ^ 8) with 256. lia. }
      destruct (type_with_code_lt _ H2) as (t & Et). rewrite Et. cbn [rbind h_type].
      destruct (type_with_code_inv _ _ Et) as (Q & _). destruct t; try reflexivity. exfalso. apply Hn. exact Q. }
    rewrite R. splits; auto using awaits_nil.
  Qed.
  Lemma start_short e : sum = true -> log_event_ok false e -> le_code e = 4 -> (length (le_body e) < 4)%nat ->
    answers cap (recv_stream_start sum o) [x00 :: event_front false e] (Panic PArith).
  Proof.
    intros Hsum (H1 & H2 & H3 & H4 & H5 & H6) Hn Hl c d Hcap Ha. destruct (awaits_cons _ _ _ _ Ha) as (c1 & E1 & A1 & S1). exists c1.
    unfold recv_stream_start. rewrite (ibind_ok _ _ _ _ _ E1).
    change (b2n x00 =? 255) with false. change (b2n x00 =? 254) with false. change (b2n x00 =? 0) with true. cbv iota.
    assert (R : check_rotate sum (event_front false e) = Panic PArith).
    { unfold check_rotate, event_front.
      rewrite header_read. 2:{ unfold header_fields_ok. splits; auto. change (2 ^ 8) with 256. lia. }
      rewrite Hn. change (type_with_code 4) with (Some EtRotate). cbn [rbind h_type]. rewrite Hsum.
      unfold csub, blen. destruct (N.ltb_spec (N.of_nat (length (le_body e))) 4); [|lia]. reflexivity. }
    rewrite R. splits; auto using awaits_nil.
  Qed.
  Lemma start_unknown b rest : b <> x00 -> b <> xfe -> b <> xff ->
    answers cap (recv_stream_start sum o) [b :: rest] (Err EPacket).
  Proof.
    intros N0 Nfe Nff c d Hcap Ha. destruct (awaits_cons _ _ _ _ Ha) as (c1 & E1 & A1 & S1). exists c1.
    unfold recv_stream_start. rewrite (ibind_ok _ _ _ _ _ E1).
    assert (B : forall a, b <> a -> (b2n b =? b2n a) = false) by (intros a Q; apply N.eqb_neq; intros X; apply Q, b2n_inj; exact X).
    pose proof (B _ Nff) as B1. pose proof (B _ Nfe) as B2. pose proof (B _ N0) as B3.
    change (b2n xff) with 255 in B1. change (b2n xfe) with 254 in B2. change (b2n x00) with 0 in B3. rewrite B1, B2, B3.
    splits; auto using awaits_nil.
  Qed.
End Start.

(** the whole *)
Lemma request_conv cap checks o uuid random_id slave_id master_id algorithm mode qs ans ps r :
  slave_id = (if bo_server_id o =? 0 then random_id else bo_server_id o) -> slave_id < 2 ^ 32 ->
  length uuid = 36%nat -> bo_heartbeat o < 2 ^ 64 -> options_ok o ->
  set_up cap o uuid slave_id master_id algorithm mode qs ans ->
  answers cap (recv_stream_start (beqb algorithm (str "CRC32")) o) ps r ->
  conversation cap (request_stream checks uuid random_id o)
    (qs ++ [asks cap (if beqb mode (str "ON") then expected_dump true slave_id o
                      else expected_dump false slave_id (bo_set_pos (bo_pos o mod 2 ^ 32) o))]) (ans ++ ps) r.
Proof.
  intros H1 H2 H3 H4 H5 Hs Hr. eapply set_up_conv; eauto.
  apply conv_send; auto using stream_request_fits. apply stream_request_asks; auto.
Qed.
Lemma request_ok cap checks o uuid random_id slave_id master_id algorithm mode qs ans m1 d m2 :
  slave_id = (if bo_server_id o =? 0 then random_id else bo_server_id o) -> slave_id < 2 ^ 32 ->
  length uuid = 36%nat -> bo_heartbeat o < 2 ^ 64 -> options_ok o ->
  (mode <> str "ON" -> bo_pos o < 2 ^ 32) ->
  set_up cap o uuid slave_id master_id algorithm mode qs ans ->
  forall sum, (sum = true <-> algorithm = str "CRC32") ->
  rotate_message sum m1 -> description_message d m2 ->
  conversation cap (request_stream checks uuid random_id o)
    (qs ++ [asks cap (expected_dump (beqb mode (str "ON")) slave_id o)]) (ans ++ [m1; m2])
    (Ok (mk_stream (described_parser d) (bo_validate o) false (bo_non_block o))).
Proof.
  intros H1 H2 H3 H4 H5 H6 Hs sum Hsum Hm1 Hm2.
  assert (Q : beqb algorithm (str "CRC32") = sum).
  { destruct (beqb algorithm (str "CRC32")) eqn:E; destruct sum; auto.
    - apply beqb_true in E. apply Hsum in E. discriminate.
    - destruct Hsum as [Hsum _]. rewrite (Hsum eq_refl), beqb_refl in E. discriminate. }
  pose proof (request_conv cap checks o uuid random_id slave_id master_id algorithm mode qs ans [m1; m2] _ H1 H2 H3 H4 H5 Hs
    ltac:(rewrite Q; apply start_ok; eassumption)) as H.
  destruct (beqb mode (str "ON")) eqn:E; [exact H|].
  assert (P : bo_pos o mod 2 ^ 32 = bo_pos o).
  { apply N.mod_small, H6. intros ->. rewrite beqb_refl in E. discriminate. }
  rewrite P in H. destruct o; exact H.
Qed.
Lemma request_truncated cap checks o uuid random_id slave_id master_id algorithm mode qs ans m1 d m2 :
  slave_id = (if bo_server_id o =? 0 then random_id else bo_server_id o) -> slave_id < 2 ^ 32 ->
  length uuid = 36%nat -> bo_heartbeat o < 2 ^ 64 -> options_ok o -> mode <> str "ON" ->
  set_up cap o uuid slave_id master_id algorithm mode qs ans ->
  rotate_message (beqb algorithm (str "CRC32")) m1 -> description_message d m2 ->
  conversation cap (request_stream checks uuid random_id o)
    (qs ++ [asks cap (RqBinlogDump (bo_pos o mod 2 ^ 32) (if bo_non_block o then 1 else 0) slave_id (bo_filename o))])
    (ans ++ [m1; m2])
    (Ok (mk_stream (described_parser d) (bo_validate o) false (bo_non_block o))).
Proof.
  intros H1 H2 H3 H4 H5 H6 Hs Hm1 Hm2.
  pose proof (request_conv cap checks o uuid random_id slave_id master_id algorithm mode qs ans [m1; m2] _ H1 H2 H3 H4 H5 Hs
    ltac:(apply start_ok; eassumption)) as H.
  destruct (beqb mode (str "ON")) eqn:E; [apply beqb_true in E; contradiction|]. exact H.
Qed.
(** what the server answers to the dump request instead of a stream *)
Lemma request_refused cap checks o uuid random_id slave_id master_id algorithm mode qs ans ps r :
  slave_id = (if bo_server_id o =? 0 then random_id else bo_server_id o) -> slave_id < 2 ^ 32 ->
  length uuid = 36%nat -> bo_heartbeat o < 2 ^ 64 -> options_ok o ->
  set_up cap o uuid slave_id master_id algorithm mode qs ans ->
  (exists m, ps = [m] /\
    ((eof_message cap m /\ r = Ok (mk_stream (mk_parser [] false) (bo_validate o) true (bo_non_block o))) \/
     (exists e, err_message cap m e /\ r = Err e) \/
     (exists e rest, log_event_ok (beqb algorithm (str "CRC32")) e /\ le_code e <> 4 /\
        m = x00 :: event_front (beqb algorithm (str "CRC32")) e ++ rest /\ r = Err ECustom) \/
     (exists b rest, m = b :: rest /\ b <> x00 /\ b <> xfe /\ b <> xff /\ r = Err EPacket))) ->
  exists dump, conversation cap (request_stream checks uuid random_id o) (qs ++ [asks cap dump]) (ans ++ ps) r.
Proof.
  intros H1 H2 H3 H4 H5 Hs (m & -> & H). eexists. eapply request_conv; eauto.
  destruct H as [[H ->]|[(e & H & ->)|[(e & rest & A & B & -> & ->)|(b & rest & -> & A & B & C & ->)]]];
    eauto using start_eof, start_err, start_other, start_unknown.
Qed.
Lemma request_short cap checks o uuid random_id slave_id master_id mode qs ans e :
  slave_id = (if bo_server_id o =? 0 then random_id else bo_server_id o) -> slave_id < 2 ^ 32 ->
  length uuid = 36%nat -> bo_heartbeat o < 2 ^ 64 -> options_ok o ->
  set_up cap o uuid slave_id master_id (str "CRC32") mode qs ans ->
  log_event_ok false e -> le_code e = 4 -> (length (le_body e) < 4)%nat ->
  exists dump, conversation cap (request_stream checks uuid random_id o) (qs ++ [asks cap dump])
    (ans ++ [x00 :: event_front false e]) (Panic PArith).
Proof. intros H1 H2 H3 H4 H5 Hs A B C. eexists. eapply request_conv; eauto. apply start_short; auto. Qed.
(** a server without the variable gtid_mode *)
Lemma request_no_gtid_mode cap checks o uuid random_id n id_text algorithm id1 id2 a1 a2 a3 a4 a5 :
  bo_heartbeat o < 2 ^ 64 -> unsigned_text n id_text -> n < 2 ^ 32 -> utf8_valid algorithm = true -> (length algorithm <= 250)%nat ->
  variable_answer cap id_text a1 -> set_answer cap id1 a2 -> variable_answer cap algorithm a3 -> set_answer cap id2 a4 ->
  variable_missing cap a5 ->
  conversation cap (request_stream checks uuid random_id o)
    (get_requests cap (str "SERVER_ID") ++
     set_requests cap id1 (str "MASTER_HEARTBEAT_PERIOD") (VInt (Z.of_N (bo_heartbeat o))) ++
     get_requests cap (str "BINLOG_CHECKSUM") ++
     set_requests cap id2 (str "MASTER_BINLOG_CHECKSUM") (VBytes algorithm) ++ get_requests cap (str "GTID_MODE"))
    (a1 ++ a2 ++ a3 ++ a4 ++ a5) (Err ECustom).
Proof.
  intros Hb H1 H2 H3 H3' A1 A2 A3 A4 A5. unfold request_stream.
  eapply conv_bind; [eapply get_req_conv; [cbn; lia|exact A1|apply (unsigned_u32 n); assumption]|].
  rewrite (trunc_id 64 (bo_heartbeat o) Hb).
  eapply conv_bind; [eapply (set_user_conv cap checks _ id1 a2 (AU64 (bo_heartbeat o))); [cbn; lia|exact A2|exact Hb|apply exec_u64_len]|].
  eapply conv_bind; [eapply get_req_conv; [cbn; lia|exact A3|apply string_text; assumption]|].
  eapply conv_bind; [eapply (set_user_conv cap checks _ id2 a4 (AString algorithm)); [cbn; lia|exact A4|apply short_str; assumption|apply exec_string_len; assumption]|].
  apply conv_stop. apply get_missing_conv; [cbn; lia|exact A5].
Qed.
