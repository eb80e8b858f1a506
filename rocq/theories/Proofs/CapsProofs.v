(** * The capabilities a connection uses *)
From Coq Require Import Strings.String.
From Coq Require Import List NArith ZArith Lia Arith Bool.
From Verif Require Import Model.Base Model.BytesParser Model.LenEnc Model.Flags Model.Packet Model.Conn Model.Auth Model.Session Model.Col Model.Tools
  Spec.Framing Spec.Session Spec.Packets Spec.Commands Spec.ResultSets Spec.Nums Spec.Wire Spec.Codec Spec.ToolSpec
  Proofs.BaseLemmas Proofs.BytesParserProofs Proofs.CodecProofs Proofs.LenEncProofs Proofs.WireLemmas Proofs.ConnProofs Proofs.SessionProofs Proofs.CommandProofs Proofs.DmlProofs Proofs.TotalProofs Proofs.PanicProofs Proofs.EventPanicProofs Proofs.HostileProofs Proofs.ToolProofs.
Import ListNotations.
Open Scope N_scope.

Definition keeps {A} (m : io A) : Prop := forall c r c', m c = (r, c') -> c_cap c' = c_cap c.
Lemma keeps_bind {A B} (m : io A) (f : A -> io B) : keeps m -> (forall a, keeps (f a)) -> keeps (ibind m f).
Proof.
  intros H F c r c'. unfold ibind. specialize (H c). destruct (m c) as [[a|e|p|] d]; intros E; try (injection E as _ <-; exact (H _ _ eq_refl)).
  apply F in E. rewrite E. exact (H _ _ eq_refl).
Qed.
Lemma keeps_lift {A} (r : res A) : keeps (ilift r).
Proof. intros c r' c' E. injection E as _ <-. reflexivity. Qed.
Lemma keeps_read k : keeps (io_read_exact k).
Proof. intros c r c'. unfold io_read_exact. destruct (read_exact k (c_rd c) []). intros E. injection E as _ <-. reflexivity. Qed.
Lemma keeps_write bs : keeps (io_write_all bs).
Proof. intros c r c'. unfold io_write_all. destruct (write_all bs (c_ws c)) as [[? ?] ?]. intros E. injection E as _ <-. reflexivity. Qed.
Lemma keeps_inc b : keeps (inc_pkt_nr b).
Proof. intros c r c'. unfold inc_pkt_nr. destruct (c_pkt_nr c =? 255); [destruct b|]; intros E; injection E as _ <-; reflexivity. Qed.
Lemma keeps_recv : keeps recv_msg.
Proof.
  intros c r c'. unfold recv_msg. generalize (S (sched_len (c_rd c))), (@nil byte). intros f bs. revert c r c'. change (keeps (recv_loop f bs)).
  revert bs. induction f as [|f IH]; intros bs; cbn [recv_loop]; [apply keeps_lift|].
  apply keeps_bind; [apply keeps_read|]. intros len. apply keeps_bind; [apply keeps_read|]. intros seq.
  apply keeps_bind; [intros c r c' E; injection E as _ <-; reflexivity|]. intros _. apply keeps_bind; [apply keeps_read|]. intros pl.
  destruct (_ <? _); [apply (keeps_lift (Ok _))|apply IH].
Qed.
Lemma keeps_packet b bs : keeps (send_packet b bs).
Proof.
  unfold send_packet. apply keeps_bind; [apply keeps_write|]. intros _. apply keeps_bind; [intros c r c' E; exact (keeps_write _ _ _ _ E)|]. intros _.
  apply keeps_bind; [apply keeps_write|]. intros _. apply keeps_inc.
Qed.
Lemma keeps_send b msg reset : keeps (send_msg b msg reset).
Proof.
  unfold send_msg. apply keeps_bind; [destruct reset; intros c r c' E; injection E as _ <-; reflexivity|]. intros _.
  generalize (S (length msg)). intros f. revert msg. induction f as [|f IH]; intros msg; cbn [send_loop]; [apply keeps_lift|].
  destruct (_ <=? _); [|apply keeps_packet]. apply keeps_bind; [apply keeps_packet|]. intros _. apply IH.
Qed.

(** after a login the connection has the capabilities the client asked for, whatever the server said *)
Lemma login_keeps sha1 sha256 checks opts s c : handshake sha1 sha256 checks opts (conn_new s) = (Ok tt, c) -> c_cap c = client_caps (o_database opts).
Proof.
  unfold handshake. intros E. apply ibind_inv in E. destruct E as (msg & c1 & R & E). apply keeps_recv in R. change (c_cap (conn_new s)) with 0 in R.
  apply ibind_inv in E. destruct E as (hs & c2 & R2 & E). injection R2 as _ <-. cbv zeta in E.
  apply ibind_inv in E. destruct E as ([] & c3 & R3 & E). injection R3 as <-.
  apply ibind_inv in E. destruct E as (p & c4 & R4 & E). injection R4 as _ <-.
  destruct (gen_init_auth_resp sha1 sha256 p (o_password opts) _) as [r p1].
  apply ibind_inv in E. destruct E as (resp & c5 & R5 & E). injection R5 as _ <-.
  apply ibind_inv in E. destruct E as ([] & c6 & R6 & E).
  assert (C : c_cap c6 = client_caps (o_database opts)).
  { destruct (o_database opts); injection R6 as <-; cbn [c_cap set_cap]; rewrite ?R; reflexivity. }
  rewrite <- C. clear R6 C. revert E. generalize (write_handshake_response (mk_hr (c_cap c6) 16777215 33 (o_username opts) resp (o_database opts) (hs_plugin hs) [])).
  intros m E. apply ibind_inv in E. destruct E as ([] & c7 & R7 & E). apply keeps_send in R7. rewrite <- R7. clear R7.
  revert E. generalize (S (sched_len (c_rd c7))), (c_cap c6). intros f cap. revert p1 c7. induction f as [|f IH]; intros p1 c7 E; [discriminate E|].
  cbn [handshake_loop] in E. apply ibind_inv in E. destruct E as (m1 & c8 & R8 & E). apply keeps_recv in R8. rewrite <- R8.
  apply ibind_inv in E. destruct E as (hm & c9 & R9 & E). injection R9 as _ <-. destruct hm as [ok|er|sw|more]; try discriminate E.
  - apply ibind_inv in E. destruct E as ([] & c10 & R10 & E). injection R10 as <-. injection E as <-. reflexivity.
  - destruct (auth_next sha1 sha256 p1 (am_data more)) as [r2 p2]. apply ibind_inv in E. destruct E as (rs & c10 & R10 & E). injection R10 as _ <-.
    apply ibind_inv in E. destruct E as ([] & c11 & R11 & E). rewrite (IH _ _ E).
    destruct rs; [injection R11 as <-; reflexivity|]. apply keeps_send in R11. exact R11.
Qed.

(** ** A server that does not know DEPRECATE_EOF *)
Lemma lei_takes bs n rest : read_lei_u64 bs = (Ok n, rest) -> (length rest < length bs)%nat.
Proof.
  unfold read_lei_u64. intros E. apply pbind_inv in E. destruct E as (l & mid & E1 & E2).
  destruct (lei_to_u64 l) as [m|] eqn:L; [|discriminate E2]. injection E2 as <- <-.
  destruct (lenenc_inv _ _ _ E1 _ L) as (w & -> & D & _). rewrite app_length. destruct w; [discriminate D|cbn [length]; lia].
Qed.
Lemma short_ok cap bs : contains cap PROTOCOL_41 = true -> (length bs < 7)%nat -> exists e, fst (read_ok_packet cap bs) = Err e.
Proof.
  intros P L. destruct (np_ok cap bs) as [[a E]|H]; [|exact H]. exfalso.
  unfold read_ok_packet in E. rewrite P in E. cbn [orb] in E.
  match type of E with fst (?m bs) = _ => destruct (m bs) as [r z] eqn:X end. cbn [fst] in E. subst r.
  apply pbind_inv in X. destruct X as (h & m1 & X1 & X). apply pbind_inv in X. destruct X as (af & m2 & X2 & X).
  apply pbind_inv in X. destruct X as (ii & m3 & X3 & X). apply pbind_inv in X. destruct X as (st & m4 & X4 & X).
  apply pbind_inv in X. destruct X as (wa & m5 & X5 & X). apply pbind_inv in X4. destruct X4 as (st0 & m6 & X6 & X7).
  apply lei_takes in X2. apply lei_takes in X3.
  apply (fixed_inv 1 _ be_val) in X1; [|intros; apply read_u8_spec'; assumption|apply short_reads_all].
  apply (fixed_inv 2 _ le_val) in X6; [|intros; apply read_le_u16_spec; assumption|apply short_reads_all].
  apply (fixed_inv 2 _ le_val) in X5; [|intros; apply read_le_u16_spec; assumption|apply short_reads_all].
  destruct X1 as (b1 & -> & L1 & _), X6 as (b2 & -> & L2 & _), X5 as (b3 & -> & L3 & _).
  assert (m6 = b3 ++ m5). { unfold status_from_bits in X7. destruct (from_bits all_status st0); [injection X7; auto|discriminate X7]. }
  subst. rewrite !app_length in *. lia.
Qed.

Lemma classic_next c rs m ps d : c_cap c = tool_caps -> rs_completed rs = false -> eof_message classic_caps m -> awaits c (m :: ps) d ->
  exists c', (forall Q (read_row : result_set -> parser (list Q)), next_row read_row rs c = (Err EPacket, rs, c')) /\ awaits c' ps d.
Proof.
  intros C R M A. destruct (awaits_cons _ _ _ _ A) as (c' & E & A' & S). exists c'. split; [|exact A']. intros Q rd.
  unfold next_row. rewrite R, E, C. inversion M as [w st Hw Hs|]; [|discriminate]. subst m.
  unfold next_row_msg, eof_wire. change (cap_protocol_41 classic_caps) with true. cbv iota. cbn [app]. change (b2n xfe =? 254) with true.
  assert (L : length (xfe :: wle 2 w ++ wle 2 st) = 5%nat) by (cbn [length]; rewrite app_length, !wle_length; reflexivity).
  unfold blen. rewrite L. change ((true && (N.of_nat 5 <=? 16777215))%bool) with true. cbv iota. change (contains tool_caps DEPRECATE_EOF) with true. cbv iota.
  destruct (short_ok tool_caps (xfe :: wle 2 w ++ wle 2 st) eq_refl ltac:(rewrite L; lia)) as [e ->]. reflexivity.
Qed.

Lemma classic_query checks sql defs hd ms c d : sendable checks sql -> defs_ok defs -> heading classic_caps defs hd ->
  c_cap c = tool_caps -> accepting (c_ws c) -> awaits c (hd ++ ms) d ->
  exists rs c1 c2, query_qry checks sql c = (Ok rs, c1) /\
    (forall Q (read_row : result_set -> parser (list Q)), next_row read_row rs c1 = (Err EPacket, rs, c2)) /\ awaits c2 ms d.
Proof.
  intros Hs Hd (e & (m0 & Em & ->) & ->) C A W.
  assert (W' : awaits c ((wlenenc (N.of_nat (length defs)) :: map coldef_wire defs ++ []) ++ m0 :: ms) d).
  { rewrite app_nil_r. cbn [app] in *. rewrite <- app_assoc in W. exact W. }
  destruct (awaits_app _ _ _ _ W') as (d1 & W1 & W2).
  destruct (qry_ok tool_caps checks sql defs _ Hs Hd (ex_intro _ [] (conj eq_refl eq_refl)) c d1 C A W1) as (c1 & rq & E & _ & _ & D & A1 & C1 & _).
  destruct (classic_next c1 (rs_new defs None) m0 ms d C1 eq_refl Em (W2 c1 D)) as (c2 & E2 & W3).
  exists (rs_new defs None), c1, c2. auto.
Qed.
Lemma classic_files checks defs hd ms c d : defs_ok defs -> heading classic_caps defs hd ->
  c_cap c = tool_caps -> accepting (c_ws c) -> awaits c (hd ++ ms) d -> exists c', conn_binlog_files checks c = (Err EPacket, c').
Proof.
  intros Hd Hh C A W. destruct (classic_query checks (str "SHOW MASTER LOGS") defs hd ms c d ltac:(right; reflexivity) Hd Hh C A W) as (rs & c1 & c2 & E & N & _).
  exists c2. unfold conn_binlog_files. rewrite (ibind_ok _ _ _ _ _ E). cbn beta. unfold on_rs. cbn [binlog_files_loop]. unfold map_next_row. rewrite N. reflexivity.
Qed.
