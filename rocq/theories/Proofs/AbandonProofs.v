(** * Calls given up while they wait *)
From Coq Require Import Strings.String.
From Coq Require Import List NArith ZArith Lia Arith Bool.
From Verif Require Import Model.Base Model.BytesParser Model.Conn Model.Flags Model.Packet Model.Auth Model.Cmd Model.Col Model.Stmt Model.Extract
  Model.Session Model.Event Model.Stream Spec.Nums Spec.Wire Spec.Framing Spec.Session Spec.Values Spec.ResultSets Spec.BinlogSpec Spec.StreamSpec
  Spec.Programs Spec.Abandon Proofs.BytesParserProofs Proofs.LenEncProofs Proofs.WireLemmas Proofs.ConnProofs Proofs.SessionProofs Proofs.CommandProofs Proofs.StreamProofs Proofs.ScheduleProofs.
Import ListNotations.
Open Scope N_scope.

Lemma flowing_delivered pre post : flowing pre -> delivered (pre ++ RPending :: post) = delivered pre ++ delivered post.
Proof.
  induction 1 as [|p pre [-> |(b & bs & ->)] _ IH]; cbn [app delivered]; [reflexivity|exact IH|]. rewrite IH, !app_assoc. reflexivity.
Qed.
Lemma abandoned_bytes {A} (m : io A) c got c' : abandoned m c got c' -> arriving c = got ++ arriving c'.
Proof.
  intros (pre & post & c1 & F & E & -> & _ & ->). unfold arriving. rewrite E, flowing_delivered by exact F. reflexivity.
Qed.

(** with nothing to read, nothing changes *)
Lemma recv_none c : arriving c = [] -> exists s, recv_msg c = (Err EIO, set_rd c s).
Proof.
  intros H. unfold recv_msg. cbn [recv_loop]. destruct (io_read_exact_short c 3) as (s & E); [unfold arriving in H; rewrite H; cbn; lia|].
  exists s. unfold ibind at 1. rewrite E. reflexivity.
Qed.
Lemma alike_refl c : accepting (c_ws c) -> alike c c.
Proof. intros H. unfold alike. auto 10. Qed.
Lemma set_rd_alike c s t : accepting (c_ws c) -> alike c (set_rd (set_rd c s) t).
Proof. intros H. unfold alike. cbn. auto 10. Qed.

(** ** Parsing an event reports no I/O error *)
Definition no_io {A} (p : parser A) : Prop := forall bs, fst (p bs) <> Err EIO.
Lemma no_io_bind {A B} (p : parser A) (f : A -> parser B) : no_io p -> (forall a, no_io (f a)) -> no_io (pbind p f).
Proof. intros H K bs. specialize (H bs). unfold pbind. destruct (p bs) as [[a|e|q|] r]; cbn [fst] in *; [apply K|intros X; apply H; congruence|discriminate|discriminate]. Qed.
Lemma no_io_ret {A} (a : A) : no_io (pret a). Proof. intros bs. discriminate. Qed.
Lemma no_io_lift {A} (r : res A) : r <> Err EIO -> no_io (plift r). Proof. intros H bs. exact H. Qed.
Lemma no_io_csub a b : csub a b <> Err EIO. Proof. unfold csub. destruct (a <? b); discriminate. Qed.
Lemma no_io_len n : no_io (read_len n). Proof. intros bs. unfold read_len. destruct (blen bs <? n); discriminate. Qed.
Lemma no_io_take n f : no_io (pmap (B := N) f (take n)).
Proof. intros bs. unfold pmap, take, pbind. destruct (length bs <? n)%nat; cbn; discriminate. Qed.
Lemma no_io_u8 : no_io read_u8. Proof. intros [|b bs]; discriminate. Qed.
Lemma no_io_header : no_io read_event_header.
Proof.
  unfold read_event_header, read_event_header_v1, read_le_u32, read_le_u16.
  repeat first [apply no_io_take|apply no_io_u8|apply no_io_ret|apply no_io_bind; [|intros ?]|apply no_io_lift].
  unfold event_type_of. match goal with |- match ?x with _ => _ end <> _ => destruct x as [|q] end; [discriminate|]. do 6 (destruct q as [q|q|]; try discriminate).
Qed.
Lemma parse_event_no_io crc self v : no_io (parse_event crc self v).
Proof.
  unfold parse_event. apply no_io_bind.
  - destruct (p_checksum self && v); [|apply no_io_ret]. unfold check_checksum. apply no_io_bind; [intros bs; apply no_io_header|]. intros h.
    apply no_io_bind; [intros bs; apply no_io_len|]. intros raw. apply no_io_bind; [apply no_io_lift, no_io_csub|]. intros n. destruct (split_at n raw) as [r1 r2].
    apply no_io_bind; [apply no_io_lift; apply (no_io_take 4)|]. intros e. cbv zeta. destruct (e =? crc r1); [apply no_io_ret|intros bs; discriminate].
  - intros _. apply no_io_bind; [apply no_io_header|]. intros h. apply no_io_bind; [apply no_io_lift, no_io_csub|]. intros n. apply no_io_bind; [apply no_io_len|]. intros d.
    apply no_io_bind; [destruct (p_checksum self); [apply no_io_bind; [apply no_io_lift, no_io_csub|intros; apply no_io_ret]|apply no_io_ret]|].
    intros d'. destruct (event_kind_of (h_type h)); apply no_io_ret.
Qed.

(** ** Events *)
Lemma recv_cut_same seqs p w c1 c2 rest : message_wire seqs p w -> arriving c1 = w ++ rest -> forall ext, arriving c2 = arriving c1 ++ ext -> alike c1 c2 ->
  exists d1 d2, recv_msg c1 = (Ok p, d1) /\ recv_msg c2 = (Ok p, d2) /\ arriving d1 = rest /\ arriving d2 = rest ++ ext /\ alike d1 d2.
Proof.
  intros W A1 ext A2 Al. destruct (recv_msg_spec seqs p w c1 rest W A1) as (d1 & E1 & D1 & N1 & (S1 & S2 & S3 & S4)).
  destruct (recv_msg_spec seqs p w c2 (rest ++ ext) W) as (d2 & E2 & D2 & N2 & (T1 & T2 & T3 & T4)); [unfold arriving in A2; rewrite A2; unfold arriving in A1; rewrite A1, app_assoc; reflexivity|].
  exists d1, d2. split; [exact E1|]. split; [exact E2|]. split; [exact D1|]. split; [exact D2|].
  destruct Al as (L1 & L2 & L3 & L4 & L5 & L6). unfold alike. rewrite S1, S2, S3, S4, T1, T2, T3, T4, N1, N2. auto 10.
Qed.
Lemma event_skips crc s ms got : messages_wire ms got -> forall f1 f2 c1 c2 rest x1, arriving c1 = got -> alike c1 c2 -> arriving c2 = got ++ rest ->
  (length (arriving c1) < f1)%nat -> (length (arriving c2) < f2)%nat ->
  next_event_loop crc f1 s c1 = (Err EIO, x1) ->
  exists d f, alike x1 d /\ arriving d = rest /\ (length rest < f)%nat /\ next_event_loop crc f2 s c2 = next_event_loop crc f s d.
Proof.
  induction 1 as [|p w ps ws seqs W Ws IH]; intros f1 f2 c1 c2 rest x1 A1 Al A2 L1 L2 E.
  - exists c2, f2. cbn [app] in A2. rewrite A2 in *. split; [|auto].
    destruct f1 as [|f1]; [lia|]. cbn [next_event_loop] in E. destruct (recv_none c1 A1) as (t & R).
    unfold ibind at 1, recv_and_parse_event, ibind in E. rewrite R in E. injection E as <-. destruct Al as (K1 & K2 & K3 & K4 & K5 & K6). unfold alike. cbn. auto 10.
  - rewrite <- app_assoc in A2. destruct (recv_cut_same seqs p w c1 c2 ws W A1 rest) as (d1 & d2 & R1 & R2 & D1 & D2 & Ad).
    { rewrite A2, A1, app_assoc. reflexivity. } { exact Al. }
    pose proof (recv_takes _ _ _ R1) as T1. pose proof (recv_takes _ _ _ R2) as T2.
    destruct f1 as [|f1]; [lia|]. destruct f2 as [|f2]; [lia|]. cbn [next_event_loop] in *.
    unfold ibind at 1, recv_and_parse_event, ibind in E. unfold ibind at 1, recv_and_parse_event, ibind. rewrite R1 in E. rewrite R2.
    destruct p as [|h p]; [discriminate E|]. destruct (s_non_block s && (b2n h =? 254)); [discriminate E|]. destruct (negb (b2n h =? 0)); [discriminate E|].
    unfold parse, ilift in *. destruct (fst (parse_event crc (s_pv4 s) (s_validate s) p)) as [[e|]|e|q|] eqn:P; try discriminate E.
    + apply (IH f1 f2 d1 d2 rest x1); auto; lia.
    + exfalso. injection E as -> _. revert P. apply parse_event_no_io.
Qed.
Lemma event_between crc s c got c' ms : abandoned (next_event crc s) c got c' -> messages_wire ms got -> accepting (c_ws c) ->
  agree [] (next_event crc s c') (next_event crc s c).
Proof.
  intros (pre & post & c1 & F & E & -> & M & ->) W Ac. unfold next_event in *. destruct (s_completed s); [discriminate M|].
  destruct (event_skips crc s ms (delivered pre) W (S (sched_len (c_rd (set_rd c pre)))) (S (sched_len (c_rd c))) (set_rd c pre) c (delivered post) c1) as (d & f & Al & Ad & Lf & R).
  - reflexivity.
  - unfold alike. cbn. auto 10.
  - unfold arriving. rewrite E. apply flowing_delivered. exact F.
  - pose proof (arriving_le (set_rd c pre)). lia.
  - pose proof (arriving_le c). lia.
  - exact M.
  - rewrite R. apply enough_event; [|pose proof (arriving_le (set_rd c1 post)); lia|rewrite Ad; exact Lf]. split.
    + destruct Al as (K1 & K2 & K3 & K4 & K5 & K6). unfold alike. cbn. auto 10.
    + rewrite Ad, app_nil_r. reflexivity.
Qed.

(** ** Rows *)
Lemma next_none {Q} (read : result_set -> parser (list Q)) rs c r c' : arriving c = [] -> call_rs (next_row read) rs c = (r, c') -> r = Err EIO -> exists s, c' = set_rd c s.
Proof.
  intros H E ->. rewrite call_next in E. destruct (rs_completed rs); [discriminate E|]. destruct (recv_none c H) as (s & R). unfold ibind in E. rewrite R in E.
  injection E as <-. eauto.
Qed.
Lemma map_none {Q O} (read : result_set -> parser (list Q)) (f : list Q -> O) rs c r c' : arriving c = [] -> call_rs (map_next_row read f) rs c = (r, c') -> r = Err EIO -> exists s, c' = set_rd c s.
Proof.
  intros H E ->. apply (next_none read rs c (fst (call_rs (next_row read) rs c)) c' H).
  - unfold call_rs, map_next_row in *. destruct (next_row read rs c) as [[r1 rs1] d]. injection E as _ <-. reflexivity.
  - unfold call_rs, map_next_row in *. destruct (next_row read rs c) as [[[o|e|p|] rs1] d]; cbn [rmap fst] in *; try discriminate E. injection E as -> _. reflexivity.
Qed.
Lemma rows_between {A} (next : rs_io (option A)) rs c c' : row_source next -> abandoned (call_rs next rs) c [] c' -> accepting (c_ws c) ->
  agree [] (call_rs next rs c') (call_rs next rs c).
Proof.
  intros Src (pre & post & c1 & F & E & G & M & ->) Ac.
  assert (N : exists t, c1 = set_rd (set_rd c pre) t).
  { assert (Ar : arriving (set_rd c pre) = []) by (symmetry; exact G). destruct Src; [eapply next_none..|eapply map_none|eapply map_none]; eauto. }
  destruct N as (t & ->). apply (fr_steady _ (frugal_source next Src)). split.
  - unfold alike. cbn. auto 10.
  - unfold arriving. rewrite E, flowing_delivered, <- G, app_nil_r by exact F. reflexivity.
Qed.

(** ** Forged messages *)
Lemma small_wire s p : N.of_nat (length p) < full -> message_wire [s] p (wle 3 (N.of_nat (length p)) ++ s :: p).
Proof. apply single_wire. Qed.
Lemma wlenenc_small n : N.of_nat (length (wlenenc n)) <= 9.
Proof. unfold wlenenc. destruct (n <? 251), (n <? 2 ^ 16), (n <? 2 ^ 24); cbn [length]; rewrite ?wle_length; lia. Qed.
Lemma nulls_row k : concat (map text_cell (repeat None k)) = repeat xfb k.
Proof. induction k as [|k IH]; [reflexivity|]. cbn [repeat map concat text_cell app]. rewrite IH. reflexivity. Qed.
Definition carrier (t : byte) (forged : list (option bytes)) : bytes := wle 3 (N.of_nat (length (text_row forged))) ++ t :: text_row forged.
Lemma forged_row defs stmt forged s t : defs_ok defs -> length forged = length defs ->
  Forall (fun c => match c with Some s => N.of_nat (length s) < 2 ^ 64 | None => True end) forged ->
  N.of_nat (length (text_row forged)) < 2 ^ 23 -> N.of_nat (length defs) < 2 ^ 16 ->
  let genuine := Some (carrier t forged) :: repeat None (length defs - 1) in
  exists a b, message_wire [s] (text_row genuine) (a ++ b) /\
    forall c c' d, abandoned (call_rs (next_row text_rows) (rs_new defs stmt)) c a c' -> arriving c = (a ++ b) ++ d ->
      (exists x, next_row text_rows (rs_new defs stmt) c = (Ok (Some genuine), rs_new defs stmt, x)) /\
      (exists x, next_row text_rows (rs_new defs stmt) c' = (Ok (Some forged), rs_new defs stmt, x)).
Proof.
  intros Hd Hf Hc Lf Ld genuine.
  assert (L1 : (1 <= length defs)%nat) by (destruct Hd as (Hn & _); destruct defs; [congruence|cbn; lia]).
  assert (Lc : N.of_nat (length (carrier t forged)) = 4 + N.of_nat (length (text_row forged))).
  { unfold carrier. rewrite app_length, wle_length. cbn [length]. lia. }
  assert (Hg : Forall (fun c => match c with Some s => N.of_nat (length s) < 2 ^ 64 | None => True end) genuine).
  { constructor; [rewrite Lc; lia|]. clear. induction (length defs - 1)%nat; constructor; auto. }
  assert (Lg : length genuine = length defs) by (cbn [genuine length]; rewrite repeat_length; lia).
  assert (Eg : text_row genuine = wlenenc (N.of_nat (length (carrier t forged))) ++ carrier t forged ++ repeat xfb (length defs - 1)).
  { unfold genuine, text_row. cbn [map concat text_cell]. unfold wlstr. rewrite nulls_row, <- app_assoc. reflexivity. }
  exists (wle 3 (N.of_nat (length (text_row genuine))) ++ s :: wlenenc (N.of_nat (length (carrier t forged)))), (carrier t forged ++ repeat xfb (length defs - 1)).
  split.
  - rewrite <- app_assoc. cbn [app]. rewrite <- Eg. apply small_wire. rewrite Eg, !app_length, repeat_length. pose proof (wlenenc_small (N.of_nat (length (carrier t forged)))).
    unfold full. lia.
  - intros c c' d Ab Ar. split.
    + destruct (next_row_row text_rows (rs_new defs stmt) c genuine (text_row genuine) [] d eq_refl) as (x & E & _).
      * apply text_row_msg; auto.
      * exists ((wle 3 (N.of_nat (length (text_row genuine))) ++ s :: wlenenc (N.of_nat (length (carrier t forged)))) ++ carrier t forged ++ repeat xfb (length defs - 1)).
        split; [|exact Ar]. rewrite <- (app_nil_r (_ ++ carrier t forged ++ _)). apply (msw_cons _ _ _ _ [s]); [|constructor].
        rewrite <- app_assoc. cbn [app]. rewrite <- Eg. apply small_wire. rewrite Eg, !app_length, repeat_length. pose proof (wlenenc_small (N.of_nat (length (carrier t forged)))).
        unfold full. lia.
      * eauto.
    + apply abandoned_bytes in Ab. rewrite Ar, <- app_assoc in Ab. apply app_inv_head in Ab.
      destruct (next_row_row text_rows (rs_new defs stmt) c' forged (text_row forged) [] (repeat xfb (length defs - 1) ++ d) eq_refl) as (x & E & _).
      * apply text_row_msg; auto.
      * exists (carrier t forged). split; [|unfold arriving in Ab; rewrite <- Ab, app_assoc; reflexivity].
        rewrite <- (app_nil_r (carrier t forged)). apply (msw_cons _ _ _ _ [t]); [|constructor]. apply small_wire. unfold full. lia.
      * eauto.
Qed.
Lemma forged_event crc s e v n t : (forall bs, crc bs < 2 ^ 32) -> s_completed s = false ->
  let sum := p_checksum (s_pv4 s) in
  log_event_ok sum e -> parsed sum e = Some v -> N.of_nat (length (event_message crc sum e)) < 2 ^ 23 ->
  let host := mk_log_event 0 29 0 0 0 (wle 3 (N.of_nat (length (event_message crc sum e))) ++ t :: event_message crc sum e) in
  log_event_ok sum host /\ parsed sum host = None /\
  exists a b, message_wire [n] (event_message crc sum host) (a ++ b) /\
    forall c c' d, abandoned (next_event crc s) c a c' -> arriving c = (a ++ b) ++ d ->
      exists x, next_event crc s c' = (Ok (Some v), x).
Proof.
  intros Hcrc Ho sum He Hv Le host.
  assert (Ls : event_size sum host < 2 ^ 23 + 27).
  { unfold event_size, host. cbn [le_body]. rewrite app_length, wle_length. cbn [length]. destruct sum; lia. }
  assert (Hh : log_event_ok sum host) by (unfold log_event_ok; cbn; repeat split; try lia; unfold host in Ls; cbn in Ls; lia).
  split; [exact Hh|]. split; [reflexivity|].
  set (body := wle 3 (N.of_nat (length (event_message crc sum e))) ++ t :: event_message crc sum e).
  set (tail := if sum then wle 4 (crc (event_front sum host)) else []).
  set (head := header_bytes 0 29 0 (event_size sum host) 0 0).
  assert (Em : event_message crc sum host = x00 :: head ++ body ++ tail).
  { unfold event_message, stored. unfold event_front at 1. cbn [le_timestamp le_code le_server_id le_next_pos le_flags le_body host]. rewrite <- app_assoc. reflexivity. }
  exists (wle 3 (N.of_nat (length (event_message crc sum host))) ++ n :: x00 :: head), (body ++ tail). split.
  - rewrite <- app_assoc. cbn [app]. rewrite <- Em. apply small_wire. rewrite Em. cbn [length]. rewrite !app_length. 
    assert (length head = 19%nat) by reflexivity. assert (length tail <= 4)%nat by (unfold tail; destruct sum; cbn [length]; rewrite ?wle_length; lia).
    unfold body. rewrite app_length, wle_length. cbn [length]. unfold full. lia.
  - intros c c' d Ab Ar. apply abandoned_bytes in Ab. rewrite Ar, <- app_assoc in Ab. apply app_inv_head in Ab.
    destruct (stream_events crc s [e] [] (tail ++ d) c' 1 Hcrc Ho) as (es1 & es2 & x & E1 & E2 & E3 & _).
    + constructor; [exact He|constructor].
    + cbn [reported]. fold sum. rewrite Hv. cbn. lia.
    + exists body. split; [|unfold arriving in Ab; rewrite <- Ab, app_assoc; reflexivity]. cbn [map app]. fold sum.
      rewrite <- (app_nil_r body). apply (msw_cons _ _ _ _ [t]); [|constructor]. apply small_wire. unfold full. lia.
    + fold sum in E1, E2, E3. destruct es1 as [|e1 [|e2 es1]]; [discriminate E2| |destruct es1; discriminate E1].
      injection E1 as <- _. cbn [reported] in E3. rewrite Hv in E3. cbn [io_pulls returned map] in E3.
      destruct (next_event crc s c') as [r y]. exists y. injection E3 as -> _. reflexivity.
Qed.

(** ** Sending *)
Lemma write_cut pre : accepting pre -> forall bs,
  (exists pre', accepting pre' /\ write_all bs (pre ++ [WFail]) = (Ok tt, bs, pre' ++ [WFail])) \/
  (exists a b, bs = a ++ b /\ b <> [] /\ write_all bs (pre ++ [WFail]) = (Err EIO, a, [])).
Proof.
  induction pre as [|[|k|] pre IH]; intros Ac bs; cbn [app].
  - destruct bs as [|b bs]; [left; exists []; split; [exact I|reflexivity]|]. right. exists [], (b :: bs). split; [reflexivity|]. split; [discriminate|reflexivity].
  - destruct bs as [|b bs]; [left; exists (WPending :: pre); split; [exact Ac|reflexivity]|]. cbn [write_all].
    destruct (IH Ac (b :: bs)) as [(p' & A' & E)|(x & y & E1 & E2 & E)]; [left; eauto|right; eauto].
  - destruct Ac as [Hk Ac]. destruct bs as [|b bs]; [left; exists (WAccept k :: pre); split; [split; assumption|reflexivity]|].
    destruct k as [|k]; [congruence|]. cbn [write_all]. destruct (IH Ac (skipn (S k) (b :: bs))) as [(p' & A' & E)|(x & y & E1 & E2 & E)].
    + left. exists p'. split; [exact A'|]. rewrite E. rewrite (firstn_skipn (S k) (b :: bs)). reflexivity.
    + right. exists (firstn (S k) (b :: bs) ++ x), y. split; [rewrite <- app_assoc, <- E1, (firstn_skipn (S k) (b :: bs)); reflexivity|]. split; [exact E2|]. rewrite E. reflexivity.
  - destruct Ac.
Qed.
Lemma io_write_cut c pre bs : accepting pre -> c_ws c = pre ++ [WFail] ->
  (exists pre', accepting pre' /\ io_write_all bs c = (Ok tt, set_wr c (pre' ++ [WFail]) (c_out c ++ bs))) \/
  (exists a b, bs = a ++ b /\ b <> [] /\ io_write_all bs c = (Err EIO, set_wr c [] (c_out c ++ a))).
Proof.
  intros Ac E. unfold io_write_all. rewrite E. destruct (write_cut pre Ac bs) as [(p' & A' & W)|(a & b & E1 & E2 & W)]; rewrite W; [left|right]; eauto 10.
Qed.
Definition kept (c c' : conn) : Prop := c_rd c' = c_rd c /\ c_cap c' = c_cap c /\ c_status c' = c_status c.
Lemma send_cut checks msg c put c' : N.of_nat (length msg) < full -> abandoned_sending (send_msg checks msg true) c put c' ->
  exists rest, rest <> [] /\ put ++ rest = wle 3 (N.of_nat (length msg)) ++ x00 :: msg /\ c_out c' = c_out c ++ put /\ kept c c'.
Proof.
  intros L (pre & post & c1 & Ac & E & R & O & ->). unfold kept. cbn [c_out c_rd c_cap c_status].
  set (c0 := mk_conn (c_rd c) (pre ++ [WFail]) (c_out c) (c_cap c) (c_status c) (c_pkt_nr c)) in *.
  unfold send_msg, ibind at 1 in R. cbn [reset_pkt_nr] in R. change (send_loop checks (S (length msg)) msg (set_pkt_nr c0 0) = (Err EIO, c1)) in R. cbn [send_loop] in R.
  destruct (N.leb_spec max_payload (blen msg)) as [B|B]; [unfold max_payload, blen, full in *; lia|].
  unfold send_packet in R. cbv zeta in R.
  pose proof (hdr_is_le msg) as H. assert (L' : N.of_nat (length msg) < 2 ^ 24) by (unfold full in L; lia). specialize (H L').
  set (hdr := [n2b (N.land (blen msg) 255); n2b (N.land (N.shiftr (blen msg) 8) 255); n2b (N.land (N.shiftr (blen msg) 16) 255)]) in *.
  assert (Hh : wle 3 (N.of_nat (length msg)) = hdr).
  { rewrite (is_le_unique _ _ _ H). apply is_le_unique. split; [apply wle_length|]. apply wle_val. exact L'. }
  rewrite Hh. clearbody hdr.
  destruct (io_write_cut (set_pkt_nr c0 0) pre hdr Ac eq_refl) as [(p1 & A1 & W1)|(a & b & E1 & E2 & W1)].
  2:{ unfold ibind at 1 in R. rewrite W1 in R. injection R as <-. cbn in O. apply app_inv_head in O. subst a. exists (b ++ x00 :: msg). split; [destruct b; discriminate|].
      rewrite app_assoc, <- E1. cbn. auto. }
  unfold ibind at 1 in R. rewrite W1 in R. set (d1 := set_wr (set_pkt_nr c0 0) (p1 ++ [WFail]) (c_out (set_pkt_nr c0 0) ++ hdr)) in R.
  destruct (io_write_cut d1 p1 [x00] A1 eq_refl) as [(p2 & A2 & W2)|(a & b & E1 & E2 & W2)].
  2:{ unfold ibind at 1 in R. change (n2b (c_pkt_nr d1)) with x00 in R. rewrite W2 in R. injection R as <-. cbn in O. rewrite <- app_assoc in O. apply app_inv_head in O. subst put. exists (b ++ msg). split; [destruct b; [congruence|discriminate]|].
      rewrite <- app_assoc, (app_assoc a b msg), <- E1. cbn. rewrite <- app_assoc. auto. }
  unfold ibind at 1 in R. change (n2b (c_pkt_nr d1)) with x00 in R. rewrite W2 in R. set (d2 := set_wr d1 (p2 ++ [WFail]) (c_out d1 ++ [x00])) in R.
  destruct (io_write_cut d2 p2 msg A2 eq_refl) as [(p3 & A3 & W3)|(a & b & E1 & E2 & W3)].
  - exfalso. unfold ibind at 1 in R. rewrite W3 in R. unfold inc_pkt_nr in R. cbn in R. discriminate R.
  - unfold ibind at 1 in R. rewrite W3 in R. injection R as <-. cbn in O. rewrite <- !app_assoc in O. apply app_inv_head in O. subst put. exists b. split; [exact E2|].
    cbn. rewrite <- !app_assoc. cbn. rewrite <- E1. auto.
Qed.
Lemma swallowed checks m1 m2 c put c' : N.of_nat (length m1) < full -> N.of_nat (length m2) < full ->
  abandoned_sending (send_msg checks m1 true) c put c' -> accepting (c_ws c') -> (4 <= length put)%nat ->
  (length put + 4 + length m2 = 4 + length m1)%nat ->
  exists x c2, send_msg checks m2 true c' = (Ok tt, c2) /\ c_out c2 = c_out c ++ x /\
    message_wire [x00] (skipn 4 put ++ wle 3 (N.of_nat (length m2)) ++ x00 :: m2) x.
Proof.
  intros L1 L2 Ab Ac Lp Le. destruct (send_cut checks m1 c put c' L1 Ab) as (rest & Hr & Ew & Eo & _).
  destruct (send_msg_spec checks c' m2 true Ac) as (seqs & w & c2 & S & W & O & C & _).
  - reflexivity.
  - right. assert (packet_count (blen m2) = 1) as ->; [|lia]. unfold packet_count, blen, full in *. rewrite N.div_small by lia. reflexivity.
  - exists (put ++ w), c2. split; [exact S|]. split; [rewrite O, Eo, app_assoc; reflexivity|].
    assert (Ww : w = wle 3 (N.of_nat (length m2)) ++ x00 :: m2).
    { destruct W as [s p w Lp' (l & Hl & ->)|s p w seqs p' w' Lp' W W']; [|exfalso; rewrite app_length in L2; unfold full in *; lia].
      destruct C as [C _]. replace s with x00; [|apply (f_equal Byte.of_N) in C; rewrite Byte.of_to_N in C; cbn in C; congruence].
      f_equal. apply is_le_unique in Hl. rewrite Hl. symmetry. apply is_le_unique. split; [apply wle_length|]. apply wle_val. unfold full in L2. cbn. lia. }
    assert (Pp : exists p4, put = wle 3 (N.of_nat (length m1)) ++ x00 :: p4).
    { assert (Lw := wle_length 3 (N.of_nat (length m1))). destruct (wle 3 (N.of_nat (length m1))) as [|l0 [|l1 [|l2 [|]]]]; try discriminate Lw.
      destruct put as [|b0 [|b1 [|b2 [|b3 put]]]]; cbn [length] in Lp; try lia. cbn [app] in Ew. injection Ew as -> -> -> -> _. eexists. reflexivity. }
    destruct Pp as (p4 & ->). rewrite app_length, wle_length in Le. cbn [length] in Le.
    assert (Lw := wle_length 3 (N.of_nat (length m1))).
    assert (Sk : skipn 4 (wle 3 (N.of_nat (length m1)) ++ x00 :: p4) = p4).
    { destruct (wle 3 (N.of_nat (length m1))) as [|l0 [|l1 [|l2 [|]]]]; try discriminate Lw. reflexivity. }
    rewrite Sk, <- Ww, <- app_assoc. cbn [app].
    assert (Ll : length (p4 ++ w) = length m1) by (rewrite Ww, !app_length, wle_length; cbn [length]; lia).
    rewrite <- Ll. apply small_wire. rewrite Ll. exact L1.
Qed.
