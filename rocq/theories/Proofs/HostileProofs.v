(** * Calls read whole messages, return, and panic only because of certain messages *)
From Coq Require Import Strings.String.
From Coq Require Import List NArith ZArith Lia Arith Bool.
From Verif Require Import Model.Base Model.BytesParser Model.LenEnc Model.Utf8 Model.Fmt Model.Conn Model.Flags Model.Packet Model.Auth Model.Cmd Model.Col Model.Row Model.Stmt
  Model.Extract Model.Session Model.Event Model.EventBody Model.Stream Spec.Framing Spec.Decoders Spec.Catalogue Spec.Programs Spec.Hostile
  Proofs.BaseLemmas Proofs.BytesParserProofs Proofs.LenEncProofs Proofs.CodecProofs Proofs.ConnProofs Proofs.TotalProofs Proofs.PanicProofs Proofs.LocalProofs Proofs.EventPanicProofs Proofs.ScheduleProofs.
Import ListNotations.
Open Scope N_scope.

(** ** Messages *)
Lemma messages_app a wa b wb : messages_wire a wa -> messages_wire b wb -> messages_wire (a ++ b) (wa ++ wb).
Proof. intros A B. induction A as [|p w ps ws seqs M A IH]; [exact B|]. cbn [app]. rewrite <- app_assoc. econstructor; eassumption. Qed.
Lemma whole_refl c c' : arriving c' = arriving c -> whole_messages c c'.
Proof. intros E. exists [], []. split; [constructor|]. cbn [app]. congruence. Qed.
Lemma whole_trans a b c : whole_messages a b -> whole_messages b c -> whole_messages a c.
Proof.
  intros (m1 & w1 & W1 & E1) (m2 & w2 & W2 & E2). exists (m1 ++ m2), (w1 ++ w2). split; [apply messages_app; assumption|].
  rewrite E1, E2. apply app_assoc.
Qed.
Lemma arrives_later earlier w0 t msg nr : messages_wire earlier w0 -> arrives t msg nr -> arrives (w0 ++ t) msg nr.
Proof.
  intros W (e & w1 & seqs & w & after & W1 & M & ->). exists (earlier ++ e), (w0 ++ w1), seqs, w, after.
  split; [apply messages_app; assumption|]. split; [exact M|]. rewrite !app_assoc. reflexivity.
Qed.
Definition up (S : bytes -> panic -> Prop) : Prop := forall earlier w0 t w, messages_wire earlier w0 -> S t w -> S (w0 ++ t) w.
Lemma up_bad bad : up (fun bs w => exists msg nr, arrives bs msg nr /\ bad msg nr w).
Proof. intros e w0 t w W (msg & nr & A & B). exists msg, nr. split; [eapply arrives_later; eassumption|exact B]. Qed.
Lemma up_true : up (fun _ _ => True). Proof. repeat intro. exact I. Qed.

(** ** Tame computations *)
Definition tame_at {A} (K : panic -> Prop) (m : io A) (c : conn) : Prop :=
  (fst (m c) <> Err EIO -> whole_messages c (snd (m c))) /\
  match fst (m c) with Panic w => K w | Loop => False | _ => True end.
Definition tame {A} (S : bytes -> panic -> Prop) (m : io A) : Prop := forall c, tame_at (S (arriving c)) m c.
Lemma tame_whole S {A} (m : io A) d : tame S m -> forall c, up S -> whole_messages c d -> tame_at (S (arriving c)) m d.
Proof.
  intros T c U (ms & w & W & E). destruct (T d) as [H1 H2]. split; [exact H1|]. destruct (fst (m d)); auto. rewrite E. eapply U; eassumption.
Qed.
Lemma tame_at_bind {A B} K (m : io A) (f : A -> io B) c : tame_at K m c ->
  (forall a d, m c = (Ok a, d) -> whole_messages c d -> tame_at K (f a) d) -> tame_at K (ibind m f) c.
Proof.
  intros [H1 H2] F. unfold tame_at, ibind. destruct (m c) as [[a|e|w|] d] eqn:E; cbn [fst snd] in *; auto.
  - assert (W : whole_messages c d) by (apply H1; discriminate). destruct (F a d eq_refl W) as [F1 F2]. split; [|exact F2].
    intros X. eapply whole_trans; [exact W|]. apply F1. exact X.
  - split; [|exact I]. intros X. apply H1. intros Y. apply X. congruence.
  - split; [|exact H2]. intros _. apply H1. discriminate.
Qed.
Lemma tame_at_lift {A} (K : panic -> Prop) (r : res A) c : (forall w, r = Panic w -> K w) -> r <> Loop -> tame_at K (ilift r) c.
Proof. intros H L. split; [intros _; apply whole_refl; reflexivity|]. cbn [fst ilift]. destruct r; auto. Qed.
Lemma tame_at_weak {A} (K K' : panic -> Prop) (m : io A) c : (forall w, K w -> K' w) -> tame_at K m c -> tame_at K' m c.
Proof. intros H [H1 H2]. split; [exact H1|]. destruct (fst (m c)); auto. Qed.

Lemma recv_arrives c msg d : recv_msg c = (Ok msg, d) ->
  exists nr, arrives (arriving c) msg nr /\ c_pkt_nr d = next_seq nr /\ whole_messages c d.
Proof.
  intros E. destruct (recv_msg_total c) as [(seqs & p & w & rest & c2 & E2 & W & D & D2)|(c2 & E2)]; [|congruence].
  destruct (recv_msg_spec seqs p w c rest W D) as (c3 & E3 & D3 & P3 & _). rewrite E in E2, E3. injection E2 as -> ->. injection E3 as <-.
  assert (X : exists s nr, seqs = s ++ [nr]).
  { destruct seqs as [|s0 l]; [inversion W|]. destruct (exists_last (l := s0 :: l) ltac:(discriminate)) as (s & nr & ->). eauto. }
  destruct X as (s & nr & ->). exists nr. split; [|split].
  - exists [], [], s, w, rest. split; [constructor|]. split; [exact W|]. exact D.
  - rewrite P3. f_equal. apply last_last.
  - exists [p], w. split; [|unfold arriving; rewrite D, D2; reflexivity]. rewrite <- (app_nil_r w). econstructor; [exact W|constructor].
Qed.
Lemma recv_cases c : (exists msg d, recv_msg c = (Ok msg, d)) \/ (exists d, recv_msg c = (Err EIO, d)).
Proof. destruct (recv_msg_total c) as [(seqs & p & w & rest & c2 & E & _)|H]; eauto. Qed.
Lemma tame_at_recv {A} K (f : bytes -> io A) c :
  (forall msg nr d, recv_msg c = (Ok msg, d) -> arrives (arriving c) msg nr -> c_pkt_nr d = next_seq nr -> whole_messages c d -> tame_at K (f msg) d) ->
  tame_at K (ibind recv_msg f) c.
Proof.
  intros H. destruct (recv_cases c) as [(msg & d & E)|(d & E)].
  - destruct (recv_arrives c msg d E) as (nr & Ar & P & W). apply tame_at_bind.
    + unfold tame_at. rewrite E. cbn [fst snd]. auto.
    + intros a d' E' _. rewrite E in E'. injection E' as <- <-. eauto.
  - unfold tame_at, ibind. rewrite E. cbn [fst]. split; [congruence|exact I].
Qed.

(** ** Sending *)
Definition fits (checks : bool) (start : N) (msg : bytes) : Prop := checks = false \/ start + packet_count (blen msg) <= 255.
Lemma write_cases bs c : (exists d, io_write_all bs c = (Ok tt, d) /\ c_pkt_nr d = c_pkt_nr c) \/ (exists d, io_write_all bs c = (Err EIO, d)).
Proof.
  unfold io_write_all. assert (X : forall s bs, (exists out s', write_all bs s = (Ok tt, out, s')) \/ (exists out s', write_all bs s = (Err EIO, out, s'))).
  { clear. induction s as [|p s IH]; intros bs; destruct bs as [|b bs]; try (left; eexists _, _; reflexivity).
    destruct p as [|[|n]|]; cbn [write_all]; try (right; eexists _, _; reflexivity); [apply IH|].
    destruct (IH (skipn n bs)) as [(out & s' & E)|(out & s' & E)]; cbn [skipn]; rewrite E; [left|right]; eauto. }
  destruct (X (c_ws c) bs) as [(out & s' & ->)|(out & s' & ->)]; [left|right]; eexists; [split; reflexivity|reflexivity].
Qed.
Lemma packet_cases checks p c : (exists d, send_packet checks p c = (Ok tt, d) /\ (c_pkt_nr c < 255 -> c_pkt_nr d = c_pkt_nr c + 1)) \/
  (exists d, send_packet checks p c = (Err EIO, d)) \/ (exists d, send_packet checks p c = (Panic PArith, d) /\ checks = true /\ c_pkt_nr c = 255).
Proof.
  unfold send_packet. cbv zeta. set (hdr := [_; _; _]). destruct (write_cases hdr c) as [(d1 & E1 & P1)|(d1 & E1)].
  2: { right. left. rewrite (ibind_err _ _ _ _ _ E1). eauto. }
  rewrite (ibind_ok _ _ _ _ _ E1). destruct (write_cases [n2b (c_pkt_nr d1)] d1) as [(d2 & E2 & P2)|(d2 & E2)].
  2: { right. left. erewrite ibind_err by exact E2. eauto. }
  erewrite ibind_ok by exact E2. destruct (write_cases p d2) as [(d3 & E3 & P3)|(d3 & E3)].
  2: { right. left. erewrite ibind_err by exact E3. eauto. }
  erewrite ibind_ok by exact E3. unfold inc_pkt_nr. rewrite P3, P2, P1. destruct (N.eqb_spec (c_pkt_nr c) 255) as [H|H].
  - destruct checks; [right; right|left]; eexists; [split; [reflexivity|auto]|split; [reflexivity|lia]].
  - left. eexists. split; [reflexivity|]. intros _. reflexivity.
Qed.
Lemma send_loop_cases checks fuel : forall bs c, (length bs < fuel)%nat -> fits checks (c_pkt_nr c) bs ->
  (exists d, send_loop checks fuel bs c = (Ok tt, d)) \/ (exists d, send_loop checks fuel bs c = (Err EIO, d)).
Proof.
  induction fuel as [|fuel IH]; intros bs c L F; [lia|]. cbn [send_loop].
  assert (H0 : checks = true -> c_pkt_nr c < 255).
  { intros ->. destruct F as [F|F]; [discriminate F|]. unfold packet_count in F. generalize dependent (blen bs / full). intros q F. lia. }
  destruct (N.leb_spec max_payload (blen bs)) as [H|H].
  - destruct (packet_cases checks (firstn (N.to_nat max_payload) bs) c) as [(d & E & P)|[(d & E)|(d & E & C & X)]].
    + rewrite (ibind_ok _ _ _ _ _ E). apply IH.
      * rewrite skipn_length. unfold max_payload, blen in *. lia.
      * destruct F as [F|F]; [left; exact F|]. destruct checks; [|left; reflexivity]. right. rewrite (P (H0 eq_refl)).
        unfold packet_count, blen in *. rewrite skipn_length. unfold max_payload, full in *.
        assert (X : N.of_nat (length bs) = N.of_nat (length bs - N.to_nat 16777215) + 1 * 16777215) by lia.
        rewrite X in F. rewrite N.div_add in F by discriminate. lia.
    + right. rewrite (ibind_err _ _ _ _ _ E). eauto.
    + specialize (H0 C). lia.
  - destruct (packet_cases checks bs c) as [(d & E & P)|[(d & E)|(d & E & C & X)]]; [left; eauto|right; eauto|]. specialize (H0 C). lia.
Qed.
Lemma send_cases checks msg (reset : bool) c : fits checks (if reset then 0 else c_pkt_nr c) msg ->
  (exists d, send_msg checks msg reset c = (Ok tt, d)) \/ (exists d, send_msg checks msg reset c = (Err EIO, d)).
Proof.
  intros F. unfold send_msg. destruct reset.
  - erewrite ibind_ok by reflexivity. apply send_loop_cases; [lia|exact F].
  - erewrite ibind_ok by reflexivity. apply send_loop_cases; [lia|exact F].
Qed.
Lemma send_loop_any checks fuel : forall bs c, (length bs < fuel)%nat -> fst (send_loop checks fuel bs c) <> Loop /\ (forall w, fst (send_loop checks fuel bs c) = Panic w -> w = PArith).
Proof.
  induction fuel as [|fuel IH]; intros bs c L; [lia|]. cbn [send_loop]. destruct (N.leb_spec max_payload (blen bs)) as [H|H].
  - destruct (packet_cases checks (firstn (N.to_nat max_payload) bs) c) as [(d & E & P)|[(d & E)|(d & E & C & X)]].
    + rewrite (ibind_ok _ _ _ _ _ E). apply IH. rewrite skipn_length. unfold max_payload, blen in *. lia.
    + rewrite (ibind_err _ _ _ _ _ E). cbn [fst]. split; [discriminate|discriminate].
    + rewrite (ibind_panic _ _ _ _ _ E). cbn [fst]. split; [discriminate|]. intros w Ew. congruence.
  - destruct (packet_cases checks bs c) as [(d & E & P)|[(d & E)|(d & E & C & X)]]; rewrite E; cbn [fst]; split; try discriminate. intros w Ew. congruence.
Qed.
Lemma tame_at_send (K : panic -> Prop) checks msg (reset : bool) c : fits checks (if reset then 0 else c_pkt_nr c) msg \/ K PArith -> tame_at K (send_msg checks msg reset) c.
Proof.
  intros F. split.
  - intros _. apply whole_refl. destruct (send_msg checks msg reset c) as [r d] eqn:E. exact (send_keeps _ _ _ _ _ _ E).
  - destruct F as [F|F].
    + destruct (send_cases checks msg reset c F) as [(d & ->)|(d & ->)]; exact I.
    + unfold send_msg. destruct reset; erewrite ibind_ok by reflexivity;
        (match goal with |- context [send_loop checks ?f msg ?d] => destruct (send_loop_any checks f msg d ltac:(lia)) as [X Y];
           destruct (fst (send_loop checks f msg d)) as [a|e|w|]; auto; rewrite (Y w eq_refl); exact F end).
Qed.

Section Tame.
  Variable S : bytes -> panic -> Prop.
  Hypothesis U : up S.
  Lemma tame_bind {A B} (m : io A) (f : A -> io B) : tame S m -> (forall a, tame S (f a)) -> tame S (ibind m f).
  Proof. intros H F c. apply tame_at_bind; [apply H|]. intros a d _ W. apply tame_whole; auto. Qed.
  Lemma tame_returns {A} (r : res A) : returns r -> tame S (ilift r).
  Proof. intros H c. apply tame_at_lift; destruct H as [[a ->]|[e ->]]; discriminate. Qed.
  Lemma tame_ret {A} (a : A) : tame S (iret a). Proof. apply (tame_returns (Ok a)). left. eauto. Qed.
  Lemma tame_err {A} e : tame S (ierr (A := A) e). Proof. apply (tame_returns (Err e)). right. eauto. Qed.
  Lemma tame_recv : tame S recv_msg.
  Proof.
    intros c. unfold tame_at. destruct (recv_cases c) as [(msg & d & E)|(d & E)]; rewrite E; cbn [fst snd].
    - destruct (recv_arrives c msg d E) as (nr & Ar & P & W). auto.
    - split; [congruence|exact I].
  Qed.
  Lemma tame_send checks msg : fits checks 0 msg \/ (forall bs, S bs PArith) -> tame S (send_msg checks msg true).
  Proof. intros H c. apply tame_at_send. destruct H as [H|H]; auto. Qed.
  Lemma tame_parse {A} (p : parser A) msg : no_panic p -> tame S (parse p msg).
  Proof. intros H. apply (tame_returns (fst (p msg))). apply H. Qed.
  Lemma tame_cap {A} (f : N -> io A) (k : io A) : (forall c, k c = f (c_cap c) c) -> (forall n, tame S (f n)) -> tame S k.
  Proof. intros E H c. unfold tame_at. rewrite E. apply H. Qed.
  Lemma tame_fun {A} (m m' : io A) : (forall c, m c = m' c) -> tame S m' -> tame S m.
  Proof. intros E H c. unfold tame_at. rewrite E. apply H. Qed.
  Lemma tame_set_cap n : tame S (fun c => (Ok tt, set_cap c n)).
  Proof. intros c. split; [intros _; apply whole_refl; reflexivity|exact I]. Qed.
  Lemma tame_set_status n : tame S (fun c => (Ok tt, set_status c n)).
  Proof. intros c. split; [intros _; apply whole_refl; reflexivity|exact I]. Qed.
  Lemma tame_reset : tame S reset_pkt_nr.
  Proof. intros c. split; [intros _; apply whole_refl; reflexivity|exact I]. Qed.
  Lemma np_err cap sql : no_panic (read_err_packet cap sql). Proof. intros bs. apply (panic_free_ok _ _ (pf_err cap sql)). Qed.
  Lemma np_ok cap : no_panic (read_ok_packet cap). Proof. intros bs. apply (panic_free_ok _ _ (pf_ok cap)). Qed.
  Lemma np_eof cap : no_panic (read_eof_packet cap). Proof. intros bs. apply (panic_free_ok _ _ (pf_eof cap)). Qed.
  Lemma np_free {A} (p : parser A) : panic_free p -> no_panic p. Proof. intros H bs. apply (panic_free_ok _ _ H). Qed.
  Lemma tame_server_error {A} msg : tame S (server_error (A := A) msg).
  Proof.
    apply (tame_cap (fun n => e <~ parse (read_err_packet n true) msg ;; ierr (error_of_err_packet e))); [reflexivity|].
    intros n. apply tame_bind; [apply tame_parse, np_err|]. intros e. apply tame_err.
  Qed.
  Lemma tame_ok_only msg : tame S (fun c => (_ <~ parse (read_ok_packet (c_cap c)) msg ;; iret tt) c).
  Proof.
    apply (tame_cap (fun n => _ <~ parse (read_ok_packet n) msg ;; iret tt)); [reflexivity|].
    intros n. apply tame_bind; [apply tame_parse, np_ok|]. intros _. apply tame_ret.
  Qed.
  Lemma tame_col_defs n : tame S (recv_col_defs n).
  Proof.
    induction n as [|n IH]; cbn [recv_col_defs]; [apply tame_ret|]. apply tame_bind; [apply tame_recv|]. intros msg.
    apply tame_bind; [apply tame_parse, np_free, pf_column_def|]. intros d. apply tame_bind; [exact IH|]. intros l. apply tame_ret.
  Qed.
  Lemma tame_defs_eof : tame S recv_defs_eof.
  Proof.
    apply (tame_cap (fun n => if contains n DEPRECATE_EOF then iret tt else msg <~ recv_msg ;; _ <~ parse (read_eof_packet n) msg ;; iret tt)).
    - intros c. unfold recv_defs_eof. destruct (contains (c_cap c) DEPRECATE_EOF); reflexivity.
    - intros n. destruct (contains n DEPRECATE_EOF); [apply tame_ret|]. apply tame_bind; [apply tame_recv|]. intros msg.
      apply tame_bind; [apply tame_parse, np_eof|]. intros _. apply tame_ret.
  Qed.
  (** loops that read a message in every round: [enough] of fuel is more than arrives *)
  Definition rounds {A} (loop : nat -> io A) : Prop := forall f c, (length (arriving c) < f)%nat -> tame_at (S (arriving c)) (loop f) c.
  Lemma tame_rounds {A} (loop : nat -> io A) : rounds loop -> tame S (fun c => loop (Datatypes.S (sched_len (c_rd c))) c).
  Proof. intros H c. pose proof (arriving_le c). apply (H (Datatypes.S (sched_len (c_rd c))) c). lia. Qed.
  Lemma rounds_whole {A} (loop : nat -> io A) f c d : rounds loop -> whole_messages c d -> (length (arriving d) < f)%nat -> tame_at (S (arriving c)) (loop f) d.
  Proof.
    intros R (ms & w & W & E) L. destruct (R f d L) as [H1 H2]. split; [exact H1|]. destruct (fst (loop f d)); auto. rewrite E. eapply U; eassumption.
  Qed.
End Tame.
Lemma small_fits checks msg : checks = false \/ N.of_nat (length msg) < 2 ^ 31 + 200 -> fits checks 0 msg.
Proof.
  intros [H|H]; [left; exact H|right]. unfold packet_count, blen, full.
  assert (N.of_nat (length msg) / 16777215 <= (2 ^ 31 + 200) / 16777215) by (apply N.div_le_mono; lia).
  change ((2 ^ 31 + 200) / 16777215) with 128 in H0. lia.
Qed.

(** ** The calls *)
Create HintDb tm.
#[export] Hint Resolve tame_ret tame_err tame_recv tame_reset tame_set_cap tame_set_status : tm.
#[export] Hint Resolve tame_server_error tame_ok_only tame_col_defs tame_defs_eof : tm.
#[export] Hint Extern 3 (tame _ (parse _ _)) => apply tame_parse, np_free; constructor : tm.
Ltac tm := repeat first
  [ solve [auto with tm nocore]
  | apply tame_bind; [assumption| |intros ?]
  | match goal with |- tame _ (match ?x with _ => _ end) => destruct x end ].
Definition exec_wraps (S : bytes -> panic -> Prop) : Prop := forall bs nr, arrives bs [] nr -> S bs PIndex.
Definition query_wraps (S : bytes -> panic -> Prop) : Prop := forall bs msg nr, arrives bs msg nr -> msg = [] \/ msg = [xfb] -> S bs PIndex.
Section Calls.
  Variable S : bytes -> panic -> Prop.
  Hypothesis U : up S.
  Definition goes (checks : bool) (msg : bytes) : Prop := fits checks 0 msg \/ forall bs, S bs PArith.
  Lemma tame_sends checks msg : goes checks msg -> tame S (send_msg checks msg true). Proof. apply tame_send. Qed.
  Lemma tame_com_response : tame S recv_com_response.
  Proof.
    unfold recv_com_response. apply tame_bind; [exact U|apply tame_recv|]. intros msg.
    apply (tame_cap S (fun n => r <~ parse (read_com_response n) msg ;; match r with CrOk _ => iret tt | CrErr e => ierr (error_of_err_packet e) end)); [reflexivity|].
    intros n. tm.
  Qed.
  Lemma count_cases n msg : match parse_col_cnt_packet n msg with
    | Ok k => k < 2 ^ 32 | Err _ => True | Panic w => w = PIndex /\ (msg = [] \/ msg = [xfb]) | Loop => False end.
  Proof.
    clear S U. unfold parse_col_cnt_packet. destruct msg as [|b msg]; [auto|].
    destruct (N.eqb_spec (b2n b) 255) as [B|B]. { destruct (np_err n true (b :: msg)) as [[a ->]|[e ->]]; exact I. }
    destruct (b2n b =? 0). { destruct (np_ok n (b :: msg)) as [[a ->]|[e ->]]; [reflexivity|exact I]. }
    destruct (read_len_enc_int (b :: msg)) as [r rest] eqn:R.
    pose proof (panic_free_ok _ _ pf_len_enc_int (b :: msg)) as NP. rewrite R in NP. cbn [fst] in NP.
    destruct r as [l|e|p|]; cbn [rbind]; try (destruct NP as [[? X]|[? X]]; discriminate X); [|exact I].
    destruct (lei_to_u32 l) as [k|] eqn:L.
    - destruct (lei_to_u64 l) as [m|] eqn:L64; [|destruct l; discriminate]. destruct (lenenc_inv _ _ _ R _ L64) as (w & _ & _ & H).
      rewrite (H _ L). apply N.mod_lt. discriminate.
    - destruct rest as [|x rest]; [|exact I]. split; [reflexivity|]. right.
      unfold read_len_enc_int in R. unfold pbind in R. change (read_u8 (b :: msg)) with (Ok (b2n b), msg) in R. cbv beta iota in R.
      destruct (N.eqb_spec (b2n b) 251) as [B1|B1]. { injection R as _ ->. f_equal. rewrite <- (n2b_b2n b). rewrite B1. reflexivity. }
      destruct (b2n b =? 252). { apply pmap_inv in R. destruct R as (x & _ & <-). discriminate L. }
      destruct (b2n b =? 253). { apply pmap_inv in R. destruct R as (x & _ & <-). discriminate L. }
      destruct (b2n b =? 254). { apply pmap_inv in R. destruct R as (x & _ & <-). discriminate L. }
      destruct (N.eqb_spec (b2n b) 255); [contradiction|]. injection R as <- _. discriminate L.
  Qed.
  Lemma col_defs_length n : forall c l d, recv_col_defs n c = (Ok l, d) -> length l = n.
  Proof.
    clear S U. induction n as [|n IH]; intros c l d E; cbn [recv_col_defs] in E; [injection E as <- _; reflexivity|].
    apply ibind_inv in E. destruct E as (msg & d1 & _ & E). apply ibind_inv in E. destruct E as (cd & d2 & _ & E).
    apply ibind_inv in E. destruct E as (l' & d3 & E1 & E). injection E as <- _. cbn [length]. f_equal. eapply IH. exact E1.
  Qed.
  Definition few_cols (rs : result_set) : Prop := N.of_nat (length (rs_col_defs rs)) < 2 ^ 58.
  Lemma new_rs_cols id c rs d : new_result_set id c = (Ok rs, d) -> few_cols rs.
  Proof.
    clear S U. unfold new_result_set. intros E. apply ibind_inv in E. destruct E as (msg & d1 & _ & E). apply ibind_inv in E. destruct E as (k & d2 & K & E).
    injection K as K <-. pose proof (count_cases (c_cap c) msg) as H. rewrite K in H. unfold few_cols.
    destruct (k =? 0); [injection E as <- _; reflexivity|]. apply ibind_inv in E. destruct E as (l & d3 & L & E).
    apply ibind_inv in E. destruct E as (u & d4 & _ & E). injection E as <- _. apply col_defs_length in L. cbn [rs_col_defs rs_new].
    rewrite L, N2Nat.id. eapply N.lt_trans; [exact H|reflexivity].
  Qed.
  Lemma tame_new_rs id : query_wraps S -> tame S (new_result_set id).
  Proof.
    intros Q. apply (tame_cap S (fun n => msg <~ recv_msg ;; col_cnt <~ ilift (parse_col_cnt_packet n msg) ;;
      if col_cnt =? 0 then iret (rs_empty id) else col_defs <~ recv_col_defs (N.to_nat col_cnt) ;; _ <~ recv_defs_eof ;; iret (rs_new col_defs id))); [reflexivity|].
    intros n c. apply tame_at_recv. intros msg nr d E Ar P W. apply tame_at_bind.
    - pose proof (count_cases n msg) as H. apply tame_at_lift.
      + intros w X. rewrite X in H. destruct H as [-> H]. eapply Q; eassumption.
      + intros X. rewrite X in H. exact H.
    - intros k d' Ek W'. apply tame_whole; [|exact U|eapply whole_trans; eassumption]. destruct (k =? 0); tm.
  Qed.
  Lemma rounds_exec (loop : nat -> io unit) : (forall f, loop (Datatypes.S f) = msg <~ recv_msg ;;
      match msg with
      | [] => ipanic PIndex
      | b :: _ => if b2n b =? 255 then server_error msg
        else if b2n b =? 0 then fun c => (_ <~ parse (read_ok_packet (c_cap c)) msg ;; iret tt) c else loop f
      end) -> exec_wraps S -> rounds S loop.
  Proof.
    intros Eq X f. induction f as [|f IH]; intros c L; [lia|]. rewrite Eq. apply tame_at_recv. intros msg nr d E Ar P W.
    destruct msg as [|b msg]. { apply tame_at_lift; [|discriminate]. intros w Ew. injection Ew as <-. eapply X. exact Ar. }
    destruct (b2n b =? 255); [apply tame_whole; auto using tame_server_error|]. destruct (b2n b =? 0); [apply tame_whole; auto using tame_ok_only|].
    apply recv_takes in E. destruct (IH d ltac:(lia)) as [H1 H2]. split; [exact H1|]. destruct (fst (loop f d)); auto.
    destruct W as (ms & w0 & W & ->). eapply U; eassumption.
  Qed.
  Lemma tame_query_exec checks sql : goes checks (write_query sql) -> exec_wraps S -> tame S (query_exec checks sql).
  Proof.
    intros G X. unfold query_exec. apply tame_bind; [exact U|apply tame_sends; exact G|]. intros _. apply (tame_rounds S query_exec_loop).
    apply rounds_exec; [reflexivity|exact X].
  Qed.
  Lemma tame_stmt_exec checks ps params : goes checks (write_stmt_execute (ps_stmt_id ps) params) -> exec_wraps S -> tame S (stmt_exec checks ps params).
  Proof.
    intros G X. unfold stmt_exec. apply tame_bind; [exact U|apply tame_sends; exact G|]. intros _. apply (tame_rounds S stmt_exec_loop).
    apply rounds_exec; [reflexivity|exact X].
  Qed.
  Lemma close_fits checks id : fits checks 0 (write_stmt_close id).
  Proof. clear S U. right. change (packet_count (blen (write_stmt_close id))) with 1. lia. Qed.
  Lemma tame_stmt_close checks ps : tame S (stmt_close checks ps).
  Proof. apply tame_sends. left. apply close_fits. Qed.
  Lemma tame_exec_close checks ps params : goes checks (write_stmt_execute (ps_stmt_id ps) params) -> exec_wraps S -> tame S (stmt_exec_close checks ps params).
  Proof.
    intros G X c. pose proof (tame_stmt_exec checks ps params G X c) as H. unfold tame_at, stmt_exec_close in *. cbv zeta.
    destruct (stmt_exec checks ps params c) as [r d]. cbn [fst snd] in H. destruct H as [H1 H2].
    assert (C : exists r' d', stmt_close checks ps d = (r', d') /\ returns r' /\ arriving d' = arriving d).
    { destruct (send_cases checks (write_stmt_close (ps_stmt_id ps)) true d (close_fits checks _)) as [(d' & E)|(d' & E)];
        exists (match fst (stmt_close checks ps d) with r => r end), d'; unfold stmt_close; rewrite E; cbn [fst];
        (split; [reflexivity|]; split; [unfold returns; eauto|exact (send_keeps _ _ _ _ _ _ E)]). }
    destruct C as (r' & d' & E & R & Ad). rewrite E. destruct r as [u|e|w|]; cbn [fst snd]; auto.
    - destruct R as [[x ->]|[x ->]]; cbn [fst snd]; (split; [|exact I]); intros _; (eapply whole_trans; [apply H1; discriminate|apply whole_refl; exact Ad]).
    - destruct R as [[x ->]|[x ->]]; cbn [fst snd]; (split; [|exact I]); intros Y; (eapply whole_trans; [apply H1; exact Y|apply whole_refl; exact Ad]).
  Qed.
  Lemma tame_query_qry checks sql : goes checks (write_query sql) -> query_wraps S -> tame S (query_qry checks sql).
  Proof. intros G Q. unfold query_qry. apply tame_bind; [exact U|apply tame_sends; exact G|]. intros _. apply tame_new_rs. exact Q. Qed.
  Lemma tame_stmt_qry checks ps params : goes checks (write_stmt_execute (ps_stmt_id ps) params) -> query_wraps S -> tame S (stmt_qry checks ps params).
  Proof. intros G Q. unfold stmt_qry. apply tame_bind; [exact U|apply tame_sends; exact G|]. intros _. apply tame_new_rs. exact Q. Qed.
  Lemma tame_defs_block n : tame S (recv_defs_block n).
  Proof. unfold recv_defs_block. tm. Qed.
  Lemma tame_prepare checks sql : goes checks (write_stmt_prepare sql) -> tame S (stmt_prepare checks sql).
  Proof.
    intros G. unfold stmt_prepare. apply tame_bind; [exact U|apply tame_sends; exact G|]. intros _. apply tame_bind; [exact U|apply tame_recv|].
    intros [|b msg]; [apply tame_err|]. destruct (b2n b =? 255); [tm|]. apply tame_bind; [exact U|apply tame_parse, np_free; constructor|]. intros okp.
    apply tame_bind; [exact U|apply tame_defs_block|]. intros pd. apply tame_bind; [exact U|apply tame_defs_block|]. intros cd. tm.
  Qed.

  (** *** Result sets *)
  Record gentle {A} (next : rs_io (option A)) (good : result_set -> Prop) : Prop := {
    gt_tame : forall rs, good rs -> tame S (call_rs next rs);
    gt_good : forall rs c o rs' c', good rs -> next rs c = (Ok o, rs', c') -> good rs';
    gt_takes : forall rs c row rs' c', next rs c = (Ok (Some row), rs', c') -> (length (arriving c') < length (arriving c))%nat }.
  Lemma gentle_next {Q} (read : result_set -> parser (list Q)) (good : result_set -> Prop) : (forall rs, good rs -> good (rs_complete rs)) ->
    (forall rs bs msg nr w, good rs -> arrives bs msg nr -> fst (read rs msg) = Panic w -> S bs w) -> (forall rs msg, fst (read rs msg) <> Loop) ->
    gentle (next_row read) good.
  Proof.
    intros GC RP RL. split.
    - intros rs G. apply (tame_fun S _ _ (call_next read rs)). destruct (rs_completed rs); [apply tame_ret|].
      apply (tame_cap S (fun n => ibind recv_msg (fun msg => let '(r, rs') := next_row_msg read n rs msg in ilift (rmap (fun a => (a, rs')) r)))); [reflexivity|].
      intros n c. apply tame_at_recv. intros msg nr d E Ar P W.
      assert (X : match fst (next_row_msg read n rs msg) with Panic w => S (arriving c) w | Loop => False | _ => True end).
      { unfold next_row_msg. destruct msg as [|b msg]; [exact I|]. destruct (_ && _).
        - destruct (contains n DEPRECATE_EOF); [destruct (np_ok n (b :: msg)) as [[a ->]|[e ->]]|destruct (np_eof n (b :: msg)) as [[a ->]|[e ->]]]; exact I.
        - pose proof (RL rs (b :: msg)) as L. specialize (RP rs (arriving c) (b :: msg) nr). destruct (fst (read rs (b :: msg))) as [a|e|w|]; cbn [rmap fst]; try exact I; [apply RP; auto|apply L; reflexivity]. }
      destruct (next_row_msg read n rs msg) as [r rs']. cbn [fst] in X. apply tame_at_lift; destruct r as [a|e|w|]; cbn [rmap]; try discriminate; auto.
      intros w' Ew. injection Ew as <-. exact X.
    - intros rs c o rs' c' G E. unfold next_row in E. destruct (rs_completed rs); [injection E as _ <- _; exact G|].
      destruct (recv_msg c) as [[msg|e|p|] d]; try discriminate E. unfold next_row_msg in E. destruct msg as [|b msg]; [discriminate E|].
      destruct (_ && _).
      + destruct (contains (c_cap c) DEPRECATE_EOF); [destruct (fst (read_ok_packet (c_cap c) (b :: msg)))|destruct (fst (read_eof_packet (c_cap c) (b :: msg)))];
          cbn [rmap] in E; try discriminate E; injection E as _ <- _; apply GC; exact G.
      + injection E as _ <- _. exact G.
    - apply frugal_next.
  Qed.
  Lemma gentle_map {Q O} (read : result_set -> parser (list Q)) (f : list Q -> O) good : gentle (next_row read) good -> gentle (map_next_row read f) good.
  Proof.
    intros [T G K]. split.
    - intros rs H. apply (tame_fun S _ (ibind (call_rs (next_row read) rs) (fun '(o, rs') => iret (option_map f o, rs')))).
      + intros c. unfold map_next_row, call_rs, ibind. destruct (next_row read rs c) as [[[o|e|p|] rs'] c']; reflexivity.
      + apply tame_bind; [exact U|apply T; exact H|]. intros [o rs']. apply tame_ret.
    - intros rs c o rs' c' H E. unfold map_next_row in E. destruct (next_row read rs c) as [[r rs2] d] eqn:R.
      destruct r as [o'|e|p|]; try discriminate E. injection E as _ <- _. eapply G; eassumption.
    - apply frugal_map.
  Qed.
  Lemma rounds_rows {A B} (next : rs_io (option A)) good (step : B -> A -> B) : gentle next good -> forall acc rs, good rs ->
    rounds S (fun fuel => call_rs (while_rows fuel next step acc) rs).
  Proof.
    intros [T G K] acc rs Hg f. revert acc rs Hg. induction f as [|f IH]; intros acc rs Hg c L; [lia|].
    assert (E : forall c, call_rs (while_rows (Datatypes.S f) next step acc) rs c =
      ibind (call_rs next rs) (fun '(o, rs') => match o with Some row => call_rs (while_rows f next step (step acc row)) rs' | None => iret (acc, rs') end) c).
    { intros c'. unfold call_rs, ibind. cbn [while_rows]. destruct (next rs c') as [[[[row|]|e|p|] rs'] c'']; reflexivity. }
    unfold tame_at. rewrite E. apply tame_at_bind; [apply T; exact Hg|]. intros [[row|] rs'] d Ed W.
    - apply call_ok in Ed. pose proof (G _ _ _ _ _ Hg Ed). apply K in Ed. destruct (IH (step acc row) rs' H d ltac:(lia)) as [H1 H2].
      split; [exact H1|]. destruct (fst (call_rs _ _ d)); auto. destruct W as (ms & w0 & W & ->). eapply U; eassumption.
    - apply tame_whole; [apply tame_ret|exact U|exact W].
  Qed.
  Lemma tame_rows {A B} (next : rs_io (option A)) good (step : B -> A -> B) acc rs : gentle next good -> good rs ->
    tame S (call_rs (fun rs c => while_rows (Datatypes.S (sched_len (c_rd c))) next step acc rs c) rs).
  Proof. intros H G. apply (tame_rounds S (fun fuel => call_rs (while_rows fuel next step acc) rs)). eapply rounds_rows; eassumption. Qed.
  Lemma tame_row_call {A B} (next : rs_io (option A)) good rs (m : io B) : gentle next good -> good rs -> row_call next rs m -> tame S m.
  Proof.
    intros H G R. destruct R.
    - apply H. exact G.
    - apply (tame_rows next good); assumption.
    - apply (tame_fun S _ (ibind (call_rs (rs_first_or_none next) rs) (fun '(o, rs') => match o with Some row => iret (row, rs') | None => ierr EEmptyResultSet end))).
      + intros c. unfold rs_first, call_rs, ibind. destruct (rs_first_or_none next rs c) as [[[[row|]|e|p|] rs'] c']; reflexivity.
      + apply tame_bind; [exact U|apply (tame_rows next good); assumption|]. intros [[row|] rs']; [apply tame_ret|apply tame_err].
    - apply (tame_rows next good); assumption.
    - apply (tame_rows next good); assumption.
  Qed.
  Lemma gentle_text : gentle (next_row text_rows) few_cols.
  Proof.
    apply gentle_next; [auto| |].
    - intros rs bs msg nr w G _ E. apply (proj1 (text_row_exact _ _)) in E. destruct E as [_ E]. unfold few_cols in G. lia.
    - intros rs msg. apply text_row_exact.
  Qed.
  Lemma gentle_binary cts : (forall bs msg nr w, arrives bs msg nr -> row_cut cts msg w -> S bs w) -> gentle (next_row binary_rows) (fun rs => rs_col_types rs = cts).
  Proof.
    intros H. apply gentle_next; [auto| |].
    - intros rs bs msg nr w <- Ar E. eapply H; [exact Ar|]. pose proof (binary_row_only (rs_col_types rs) msg) as X. unfold binary_rows in E. rewrite E in X. exact X.
    - intros rs msg E. pose proof (binary_row_only (rs_col_types rs) msg) as X. unfold binary_rows in E. rewrite E in X. exact X.
  Qed.
  Lemma tame_rs_close checks rs : tame S (call_rs (rs_close checks) rs).
  Proof.
    destruct (rs_stmt_id rs) as [id|] eqn:E.
    - apply (tame_fun S _ (ibind (send_msg checks (write_stmt_close id) true) (fun u => iret (u, mk_res (rs_col_defs rs) (rs_completed rs) (rs_col_types rs) None)))).
      + intros c. unfold call_rs, rs_close, ibind. rewrite E. destruct (send_msg checks (write_stmt_close id) true c) as [[u|e|p|] c']; reflexivity.
      + apply tame_bind; [exact U|apply tame_sends; left; apply close_fits|]. intros u. apply tame_ret.
    - apply (tame_fun S _ (iret (tt, rs))); [|apply tame_ret]. intros c. unfold call_rs, rs_close. rewrite E. reflexivity.
  Qed.
  Lemma tame_on_rs {A} (m : rs_io A) rs : tame S (call_rs m rs) -> tame S (on_rs m rs).
  Proof.
    intros H. apply (tame_fun S _ (ibind (call_rs m rs) (fun '(a, _) => iret a))).
    - intros c. unfold on_rs, call_rs, ibind. destruct (m rs c) as [[[a|e|p|] rs'] c']; reflexivity.
    - apply tame_bind; [exact U|exact H|]. intros [a rs']. apply tame_ret.
  Qed.
  (** after a query: what holds of the result set it returns *)
  Lemma tame_query_then {A} checks sql (k : result_set -> io A) : goes checks (write_query sql) -> query_wraps S ->
    (forall rs, few_cols rs -> tame S (k rs)) -> tame S (ibind (query_qry checks sql) k).
  Proof.
    intros G Q H c. apply tame_at_bind; [apply tame_query_qry; assumption|]. intros rs d E W. apply tame_whole; [|exact U|exact W]. apply H.
    unfold query_qry in E. apply ibind_inv in E. destruct E as (u & d' & _ & E). eapply new_rs_cols. exact E.
  Qed.

  (** *** Commands *)
  Lemma rounds_fields acc : rounds S (fun fuel => field_list_loop fuel acc).
  Proof.
    intros f. revert acc. induction f as [|f IH]; intros acc c L; [lia|]. cbn [field_list_loop]. apply tame_at_recv. intros msg nr d E Ar P W.
    apply recv_takes in E. unfold tame_at. apply (tame_at_bind (S (arriving c)) (parse (read_field_list_response (c_cap d) true) msg)).
    - apply tame_whole; [apply tame_parse, np_free; constructor|exact U|exact W].
    - intros r d' Er W'. injection Er as _ <-. destruct r as [def|err|eof].
      + destruct (IH (acc ++ [def]) d ltac:(lia)) as [H1 H2]. split; [exact H1|]. destruct (fst (field_list_loop f (acc ++ [def]) d)); auto.
        destruct W as (ms & w0 & W & ->). eapply U; eassumption.
      + apply tame_whole; auto using tame_err.
      + apply tame_whole; auto using tame_ret.
  Qed.
  Lemma tame_fields checks table wild : goes checks (write_field_list table wild) -> tame S (conn_field_list checks table wild).
  Proof.
    intros G. unfold conn_field_list. apply tame_bind; [exact U|apply tame_sends; exact G|]. intros _.
    apply (tame_rounds S (fun fuel => field_list_loop fuel [])). apply rounds_fields.
  Qed.
  Lemma tame_statistics checks : goes checks write_statistics -> tame S (conn_statistics checks).
  Proof.
    intros G. unfold conn_statistics. apply tame_bind; [exact U|apply tame_sends; exact G|]. intros _. apply tame_bind; [exact U|apply tame_recv|].
    intros msg. apply tame_returns. unfold from_utf8, returns. destruct (utf8_valid msg); eauto.
  Qed.
  Lemma tame_debug checks : goes checks write_debug -> tame S (conn_debug checks).
  Proof.
    intros G. unfold conn_debug. apply tame_bind; [exact U|apply tame_sends; exact G|]. intros _. apply tame_bind; [exact U|apply tame_recv|]. intros msg.
    apply (tame_cap S (fun n => r <~ parse (read_debug_response n) msg ;; match r with DbEof _ => iret tt | DbErr err => ierr (error_of_err_packet err) end)); [reflexivity|].
    intros n. tm.
  Qed.
  Lemma tame_ping checks : goes checks write_ping -> tame S (conn_ping checks).
  Proof.
    intros G. unfold conn_ping. apply tame_bind; [exact U|apply tame_sends; exact G|]. intros _. apply tame_bind; [exact U|apply tame_recv|]. intros msg. apply tame_ok_only. exact U.
  Qed.
  Lemma tame_multi checks b : goes checks (write_set_option b) -> tame S (conn_set_multi_stmts checks b).
  Proof.
    intros G. unfold conn_set_multi_stmts. apply tame_bind; [exact U|apply tame_sends; exact G|]. intros _. apply tame_bind; [exact U|apply tame_recv|]. intros msg.
    apply (tame_cap S (fun n => r <~ parse (read_set_option_response n) msg ;;
      match r with SoEof _ => fun c => (Ok tt, set_cap c (if b then insert (c_cap c) MULTI_STATEMENTS else remove (c_cap c) MULTI_STATEMENTS))
                 | SoErr err => ierr (error_of_err_packet err) end)); [reflexivity|].
    intros n. apply tame_bind; [exact U|apply tame_parse, np_free; constructor|]. intros [eof|err]; [|apply tame_err].
    apply (tame_cap S (fun n c => (Ok tt, set_cap c (if b then insert n MULTI_STATEMENTS else remove n MULTI_STATEMENTS)))); [reflexivity|]. intros. apply tame_set_cap.
  Qed.
  Lemma tame_simple checks msg : goes checks msg -> tame S (_ <~ send_msg checks msg true ;; recv_com_response).
  Proof. intros G. apply tame_bind; [exact U|apply tame_sends; exact G|]. intros _. apply tame_com_response. Qed.
  Lemma tame_var {V} (from : option bytes -> res V) i rs : few_cols rs ->
    tame S (on_rs (rs_first_or_none (map_next_row text_rows (fun row => get_col from row i))) rs).
  Proof. intros H. apply tame_on_rs. apply (tame_rows _ few_cols); [apply gentle_map, gentle_text|exact H]. Qed.
  Lemma get_col_cases {C V} (from : C -> res V) row i : (exists v, get_col from row i = from v) \/ get_col from row i = Err EColIndex.
  Proof.
    clear S U. unfold get_col. destruct (Nat.leb_spec (length row) i) as [L|L]; [right; reflexivity|].
    destruct (nth_error row i) as [x|] eqn:E; [left; eauto|]. apply nth_error_None in E. lia.
  Qed.
  (** *** reading variables: the value is decoded after all rows were read *)
  Lemma first_row_col {V} (from : option bytes -> res V) i rs c o rs' d : rs_first_or_none (map_next_row text_rows (fun row => get_col from row i)) rs c = (Ok (Some o), rs', d) ->
    (exists v, o = from v) \/ o = Err EColIndex.
  Proof.
    clear S U. unfold rs_first_or_none. generalize (Datatypes.S (sched_len (c_rd c))). intros f.
    assert (X : forall f acc rs c rs' d, (forall x, acc = Some x -> (exists v, x = from v) \/ x = Err EColIndex) ->
      while_rows f (map_next_row text_rows (fun row => get_col from row i)) (fun first row => match first with None => Some row | Some _ => first end) acc rs c = (Ok (Some o), rs', d) ->
      (exists v, o = from v) \/ o = Err EColIndex).
    { clear. induction f as [|f IH]; intros acc rs c rs' d H E; [discriminate E|]. cbn [while_rows] in E.
      destruct (map_next_row text_rows (fun row => get_col from row i) rs c) as [[[[row|]|e|p|] rs2] c2] eqn:M; try discriminate E.
      - eapply IH; [|exact E]. intros x Hx. destruct acc as [y|]; [apply H; exact Hx|]. injection Hx as <-.
        unfold map_next_row in M. destruct (next_row text_rows rs c) as [[r rs3] c3]. destruct r as [[l|]|e|p|]; try discriminate M.
        injection M as <- _ _. apply get_col_cases.
      - injection E as -> _ _. apply H. reflexivity. }
    apply X. discriminate.
  Qed.
  Lemma tame_var_value {V} (from : option bytes -> res V) i rs : few_cols rs -> (forall v bs w, from v = Panic w -> S bs w) -> (forall v, from v <> Loop) ->
    tame S (o <~ on_rs (rs_first_or_none (map_next_row text_rows (fun row => get_col from row i))) rs ;;
            match o with Some var => v <~ ilift var ;; iret (Some v) | None => iret None end).
  Proof.
    intros H P L c. apply tame_at_bind; [apply tame_var; exact H|]. intros o d E W. destruct o as [o|]; [|apply tame_whole; auto using tame_ret].
    apply tame_at_bind; [|intros v d' _ W'; apply tame_whole; [apply tame_ret|exact U|eapply whole_trans; eassumption]].
    unfold on_rs in E. destruct (rs_first_or_none _ rs c) as [[r rs'] d'] eqn:R. injection E as -> <-. apply first_row_col in R.
    apply tame_at_lift; destruct R as [(v & ->)| ->]; try discriminate; auto. intros w Ew. eapply P. exact Ew.
  Qed.
  Lemma tame_get_var {V} checks (from : option bytes -> res V) name global : goes checks (write_query (get_var_sql name global)) -> query_wraps S ->
    (forall v bs w, from v = Panic w -> S bs w) -> (forall v, from v <> Loop) -> tame S (conn_get_var checks from name global).
  Proof. intros G Q P L. unfold conn_get_var. apply tame_query_then; [exact G|exact Q|]. intros rs H. apply tame_var_value; assumption. Qed.
  Lemma tame_get_user_var {V} checks (from : option bytes -> res V) name : goes checks (write_query (str "SELECT @" ++ name)) -> query_wraps S ->
    (forall v bs w, from v = Panic w -> S bs w) -> (forall v, from v <> Loop) -> tame S (conn_get_user_var checks from name).
  Proof. intros G Q P L. unfold conn_get_user_var. apply tame_query_then; [exact G|exact Q|]. intros rs H. apply tame_var_value; assumption. Qed.
  Lemma tame_set_var checks name v global : goes checks (write_stmt_prepare (set_var_sql name global)) ->
    (forall id, goes checks (write_stmt_execute id [v])) -> exec_wraps S -> tame S (conn_set_var checks name v global).
  Proof.
    intros G1 G2 X. unfold conn_set_var. apply tame_bind; [exact U|apply tame_prepare; exact G1|]. intros ps. apply tame_exec_close; auto.
  Qed.
  Lemma tame_set_user_var checks name v : goes checks (write_stmt_prepare (str "SET @" ++ name ++ str " = ?")) ->
    (forall id, goes checks (write_stmt_execute id [v])) -> exec_wraps S -> tame S (conn_set_user_var checks name v).
  Proof.
    intros G1 G2 X. unfold conn_set_user_var. apply tame_bind; [exact U|apply tame_prepare; exact G1|]. intros ps. apply tame_exec_close; auto.
  Qed.
  Lemma text_returns {V} (p : bytes -> res V) v : (forall s, returns (p s)) -> returns (non_null (text_parsed p) v).
  Proof.
    clear S U. intros H. unfold non_null, text_parsed. destruct v as [bs|]; cbn [rbind]; [|right; eauto].
    unfold from_utf8. destruct (utf8_valid bs); cbn [rbind]; [|right; eauto]. destruct (H bs) as [[a ->]|[e ->]]; cbn [rbind]; [left|right]; eauto.
  Qed.
  Lemma parse_u_returns k s : returns (parse_u k s).
  Proof. clear S U. unfold parse_u, returns. cbv zeta. destruct (parse_nat _); [destruct (_ <? _)|]; eauto. Qed.
  Lemma string_returns v : returns (non_null string_from_text v).
  Proof. clear S U. unfold non_null, string_from_text, returns. destruct v as [bs|]; cbn [rbind]; [|eauto]. unfold from_utf8. destruct (utf8_valid bs); cbn [rbind]; eauto. Qed.
  Lemma file_returns row : returns (binlog_file_mapper row).
  Proof.
    clear S U. unfold binlog_file_mapper. destruct (get_col_cases (non_null string_from_text) row 0) as [(v & ->)| ->]; [|right; eexists; reflexivity].
    destruct (string_returns v) as [[a ->]|[e ->]]; cbn [rbind]; [|right; eauto].
    destruct (get_col_cases (non_null u64_from_text) row 1) as [(v' & ->)| ->]; [|right; eexists; reflexivity].
    destruct (text_returns (parse_u 64) v' (parse_u_returns 64)) as [[b E]|[e E]]; unfold u64_from_text; rewrite E; cbn [rbind]; [left|right]; eauto.
  Qed.
  Lemma rounds_files : forall files rs, few_cols rs -> rounds S (fun fuel => on_rs (binlog_files_loop fuel files) rs).
  Proof.
    destruct (gentle_map text_rows binlog_file_mapper few_cols gentle_text) as [T G K].
    intros files rs Hg f. revert files rs Hg. induction f as [|f IH]; intros files rs Hg c L; [lia|].
    assert (E : forall c, on_rs (binlog_files_loop (Datatypes.S f) files) rs c =
      ibind (call_rs (map_next_row text_rows binlog_file_mapper) rs) (fun '(o, rs') => match o with
        | Some (Ok file) => on_rs (binlog_files_loop f (files ++ [file])) rs' | Some (Err e) => ierr e | Some (Panic p) => ipanic p
        | Some Loop => ilift Loop | None => iret files end) c).
    { intros c'. unfold call_rs, on_rs, ibind. cbn [binlog_files_loop]. destruct (map_next_row text_rows binlog_file_mapper rs c') as [[[[[row|e|p|]|]|e|p|] rs'] c'']; reflexivity. }
    unfold tame_at. rewrite E. apply tame_at_bind; [apply T; exact Hg|]. intros [[r|] rs'] d Ed W; [|apply tame_whole; auto using tame_ret].
    apply call_ok in Ed. pose proof (G _ _ _ _ _ Hg Ed) as Hg'. pose proof (K _ _ _ _ _ Ed) as Lt.
    assert (R : returns r).
    { unfold map_next_row in Ed. destruct (next_row text_rows rs c) as [[q rs3] c3]. destruct q as [[l|]|e|p|]; try discriminate Ed. injection Ed as <- _ _. apply file_returns. }
    destruct R as [[file ->]|[e ->]]; [|apply tame_whole; auto using tame_err].
    destruct (IH (files ++ [file]) rs' Hg' d ltac:(lia)) as [H1 H2]. split; [exact H1|]. destruct (fst (on_rs _ _ d)); auto.
    destruct W as (ms & w0 & W & ->). eapply U; eassumption.
  Qed.
  Lemma tame_files checks : goes checks (write_query (str "SHOW MASTER LOGS")) -> query_wraps S -> tame S (conn_binlog_files checks).
  Proof.
    intros G Q. unfold conn_binlog_files. apply tame_query_then; [exact G|exact Q|]. intros rs H.
    apply (tame_rounds S (fun fuel => on_rs (binlog_files_loop fuel []) rs)). apply rounds_files. exact H.
  Qed.

  (** *** Logging in *)
  Lemma tame_reply (K : panic -> Prop) checks msg nr d : c_pkt_nr d = next_seq nr -> packet_count (blen msg) = 1 \/ K PArith ->
    (checks = true -> nr = xfe -> K PArith) -> tame_at K (send_msg checks msg false) d.
  Proof.
    clear S U. intros P C H. apply tame_at_send. destruct C as [C|C]; [|right; exact C]. destruct checks; [|left; left; reflexivity].
    destruct (N.eq_dec (c_pkt_nr d) 255) as [E|E].
    - right. apply H; [reflexivity|]. rewrite P in E. unfold next_seq in E. change (Byte.to_N nr) with (b2n nr) in E. rewrite <- (n2b_b2n nr).
      assert (b2n nr = 254) as ->; [|reflexivity]. pose proof (b2n_lt nr). clear -E H0. assert (b2n nr <= 254 \/ b2n nr = 255) as [X|X] by lia.
      + rewrite N.mod_small in E by lia. lia.
      + rewrite X in E. discriminate E.
    - left. right. rewrite C. assert (c_pkt_nr d < 256) by (rewrite P; apply N.mod_lt; discriminate). lia.
  Qed.
  Lemma one_packet msg : blen msg < full -> packet_count (blen msg) = 1.
  Proof. clear S U. intros H. unfold packet_count. rewrite N.div_small by exact H. reflexivity. Qed.
  Definition quiet (p : auth_plugin) : Prop := match p with Native _ => True | Sha2 _ _ _ ssl => ssl = false end.
  Definition digests (sha1 sha256 : bytes -> bytes) : Prop := (forall x, (length (sha1 x) <= 32)%nat) /\ (forall x, (length (sha256 x) <= 32)%nat).
  Lemma xor_length a : forall b, (length (xor_zip a b) <= length a)%nat.
  Proof. clear S U. induction a as [|x a IH]; intros [|y b]; cbn [xor_zip length]; try lia. specialize (IH b). lia. Qed.
  Lemma auth_quiet sha1 sha256 p input : quiet p -> let '(r, p') := auth_next sha1 sha256 p input in
    returns r /\ quiet p' /\ forall resp, r = Ok resp -> digests sha1 sha256 -> (length resp <= 32)%nat.
  Proof.
    clear S U. unfold auth_next, returns. destruct p as [[|x pw]|[|x pw] seed st ssl]; cbn [quiet]; intros Q.
    - split; [eauto|]. split; [exact I|]. intros resp E _. injection E as <-. cbn; lia.
    - split; [eauto|]. split; [exact I|]. intros resp E [D _]. injection E as <-. unfold scramble411.
      etransitivity; [apply xor_length|apply D].
    - split; [eauto|]. split; [exact Q|]. intros resp E _. injection E as <-. cbn; lia.
    - subst ssl. destruct st; unfold full_auth; cbv iota.
      + split; [eauto|]. split; [reflexivity|]. intros resp E [_ D]. injection E as <-. unfold scramble_caching_sha2. etransitivity; [apply xor_length|apply D].
      + destruct input as [|b input]; [split; [eauto|split; [reflexivity|discriminate]]|].
        destruct (b2n b =? 3). { split; [eauto|split; [reflexivity|]]. intros resp E _. injection E as <-. cbn; lia. }
        destruct (b2n b =? 4); (split; [eauto|split; [reflexivity|discriminate]]).
      + split; [eauto|split; [reflexivity|discriminate]].
      + split; [eauto|split; [reflexivity|discriminate]].
  Qed.
  Lemma short_packet (msg : bytes) : (length msg <= 32)%nat -> packet_count (blen msg) = 1.
  Proof. clear S U. intros H. apply one_packet. unfold blen, full. lia. Qed.
  Lemma plugin_cases name : match new_auth_plugin name with Ok p => quiet p /\ (length name <= 32)%nat | Err _ => True | _ => False end.
  Proof.
    clear S U. unfold new_auth_plugin. destruct (beqb_spec name (str "mysql_native_password")) as [->|_]; [split; [exact I|cbn; lia]|].
    destruct (beqb_spec name (str "caching_sha2_password")) as [->|_]; [split; [reflexivity|cbn; lia]|exact I].
  Qed.
  Lemma set_quiet p pw : quiet p -> quiet (set_credential p pw). Proof. clear S U. destruct p; exact (fun H => H). Qed.
  Lemma handshake_switch cap msg sw : fst (read_handshake_message cap msg) = Ok (HmSwitch sw) -> exists rest, msg = xfe :: rest.
  Proof.
    clear S U. unfold read_handshake_message. destruct msg as [|b msg]; [discriminate|]. intros E. exists msg. f_equal. rewrite <- (n2b_b2n b).
    destruct (b2n b =? 0). { exfalso. unfold pmap, pbind in E. destruct (read_ok_packet cap (b :: msg)) as [[x|x|x|] r]; discriminate E. }
    destruct (b2n b =? 1). { exfalso. unfold pmap, pbind in E. destruct (read_auth_more (b :: msg)) as [[x|x|x|] r]; discriminate E. }
    destruct (b2n b =? 255). { exfalso. unfold pmap, pbind in E. destruct (read_err_packet cap false (b :: msg)) as [[x|x|x|] r]; discriminate E. }
    destruct (N.eqb_spec (b2n b) 254) as [->|_]; [reflexivity|]. discriminate E.
  Qed.
  Definition login_wraps (checks : bool) : Prop := forall bs msg nr w, arrives bs msg nr -> login_bad checks msg nr w -> S bs w.
  Lemma rounds_login sha1 sha256 checks cap : login_wraps checks -> digests sha1 sha256 \/ (forall bs, S bs PArith) ->
    forall p, quiet p -> rounds S (fun fuel => handshake_loop sha1 sha256 checks cap fuel p).
  Proof.
    intros W D p Q f. revert p Q. induction f as [|f IH]; intros p Q c L; [lia|]. cbn [handshake_loop]. apply tame_at_recv. intros msg nr d E Ar P Wd.
    apply recv_takes in E. apply tame_at_bind.
    { destruct (np_free _ (pf_handshake_message cap) msg) as [[a ->]|[e ->]]; apply tame_at_lift; discriminate. }
    intros m d' Em _. injection Em as Em <-. destruct m as [ok|err|sw|more].
    - apply tame_whole; [|exact U|exact Wd]. apply tame_bind; [exact U|apply tame_set_status|]. intros _. apply tame_reset.
    - apply tame_whole; [apply tame_err|exact U|exact Wd].
    - apply tame_at_lift; [|discriminate]. intros w Ew. injection Ew as <-. apply handshake_switch in Em. eapply W; [exact Ar|]. right. left. auto.
    - pose proof (auth_quiet sha1 sha256 p (am_data more) Q) as X. destruct (auth_next sha1 sha256 p (am_data more)) as [r p']. destruct X as (R & Q' & Lr).
      destruct R as [[resp ->]|[e ->]]; [|apply tame_whole; [apply tame_err|exact U|exact Wd]].
      apply tame_at_bind; [apply tame_at_lift; discriminate|]. intros a d' Ea _. injection Ea as <- <-.
      apply tame_at_bind.
      + destruct resp as [|b resp]; [apply tame_at_lift; discriminate|]. eapply tame_reply; [exact P| |].
        * destruct D as [D|D]; [left; apply short_packet, Lr; auto|right; apply D].
        * intros C N. eapply W; [exact Ar|]. right. right. auto.
      + intros u d' E' W'. assert (A : arriving d' = arriving d).
        { destruct resp as [|b resp]; [injection E' as _ <-; reflexivity|]. exact (send_keeps _ _ _ _ _ _ E'). }
        destruct (IH p' Q' d' ltac:(rewrite A; lia)) as [H1 H2]. split; [exact H1|]. destruct (fst (handshake_loop _ _ _ _ f p' d')); auto.
        rewrite A in H2. destruct Wd as (ms & w0 & Wm & ->). eapply U; eassumption.
  Qed.
  Lemma tame_at_set {A} (K : panic -> Prop) (f : unit -> io A) (n : N -> N) c : tame_at K (f tt) (set_cap c (n (c_cap c))) -> tame_at K (ibind (fun c => (Ok tt, set_cap c (n (c_cap c)))) f) c.
  Proof. clear S U. exact (fun H => H). Qed.
  Lemma wle_4 n : length (write_le_u32 n) = 4%nat. Proof. reflexivity. Qed.
  Lemma response_size cap user auth db plugin : (length (write_handshake_response (mk_hr cap 0xffffff 33 user auth db plugin [])) <=
    length user + length auth + length db + length plugin + 60)%nat.
  Proof.
    clear S U. unfold write_handshake_response. cbn [hr_cap hr_max_packet hr_charset hr_username hr_auth hr_database hr_plugin hr_attrs]. rewrite !app_length, !wle_4.
    rewrite repeat_length. assert (X : forall l, (length (lei_write (lei_from l)) <= 9)%nat).
    { intros l. unfold lei_write, lei_from. repeat match goal with |- context [if ?b then _ else _] => destruct b end; cbn; lia. }
    specialize (X (blen auth)).
    assert (Y : (length (if contains cap CONNECT_WITH_DB then db ++ write_u8 0 else []) <= length db + 1)%nat) by (destruct (contains cap CONNECT_WITH_DB); rewrite ?app_length; cbn; lia).
    assert (Z : (length (if contains cap PLUGIN_AUTH then plugin ++ write_u8 0 else []) <= length plugin + 1)%nat) by (destruct (contains cap PLUGIN_AUTH); rewrite ?app_length; cbn; lia).
    assert (V : (length (if contains cap CONNECT_ATTRS then let lb := attrs_bytes [] in lei_write (lei_from (blen lb)) ++ lb else []) <= 2)%nat)
      by (destruct (contains cap CONNECT_ATTRS); cbn; lia).
    change (length (write_u8 33)) with 1%nat. change (length (write_u8 0)) with 1%nat. cbv zeta in V. lia.
  Qed.
  Lemma tame_login sha1 sha256 checks opts : login_wraps checks ->
    (digests sha1 sha256 /\ N.of_nat (length (o_username opts) + length (o_database opts)) < 2 ^ 23) \/ (forall bs, S bs PArith) ->
    tame S (handshake sha1 sha256 checks opts).
  Proof.
    intros W D c. unfold handshake. apply tame_at_recv. intros msg nr d E Ar P Wd. apply tame_at_bind.
    { pose proof (greeting_exact msg) as [X Y]. apply tame_at_lift; [|exact Y]. intros w Ew. apply X in Ew. eapply W; [exact Ar|]. left. exact Ew. }
    intros hs d' Eh _. injection Eh as _ <-. cbv zeta. apply (tame_at_set _ _ login_caps). pose proof (plugin_cases (hs_plugin hs)) as Pc.
    apply tame_at_bind; [destruct (new_auth_plugin (hs_plugin hs)); try contradiction; apply tame_at_lift; discriminate|].
    intros p d' Ep _. injection Ep as Ep <-. rewrite Ep in Pc. destruct Pc as [Q Lp]. unfold gen_init_auth_resp.
    match goal with |- context [auth_next sha1 sha256 ?q ?i] => pose proof (auth_quiet sha1 sha256 q i (set_quiet _ _ Q)) as X; destruct (auth_next sha1 sha256 q i) as [r p'] end.
    destruct X as (R & Q' & Lr). apply tame_at_bind; [destruct R as [[a ->]|[e ->]]; apply tame_at_lift; discriminate|].
    intros auth d' Ea _. injection Ea as -> <-. specialize (Lr auth eq_refl).
    assert (Go : forall d', c_pkt_nr d' = next_seq nr -> arriving d' = arriving d -> tame_at (S (arriving c)) (fun c0 =>
      let cap := c_cap c0 in let resp := mk_hr cap 0xffffff 33 (o_username opts) auth (o_database opts) (hs_plugin hs) [] in
      (_ <~ send_msg checks (write_handshake_response resp) false ;; fun c1 => handshake_loop sha1 sha256 checks cap (Datatypes.S (sched_len (c_rd c1))) p' c1) c0) d').
    { intros d' P' A'. unfold tame_at. cbv zeta. match goal with |- context [ibind ?m ?k d'] => apply (tame_at_bind (S (arriving c)) m k d') end.
      - eapply tame_reply; [exact P'| |].
        + destruct D as [[D1 D2]|D]; [left|right; apply D]. apply one_packet. unfold blen. pose proof (response_size (c_cap d') (o_username opts) auth (o_database opts) (hs_plugin hs)) as Rs.
          specialize (Lr D1). unfold full. lia.
        + intros C N. eapply W; [exact Ar|]. right. right. auto.
      - intros u d2 E2 _. apply tame_whole; [|exact U|].
        + apply (tame_rounds S (fun fuel => handshake_loop sha1 sha256 checks (c_cap d') fuel p')). apply rounds_login; [exact W| |exact Q'].
          destruct D as [[D _]|D]; auto.
        + apply send_keeps in E2. destruct Wd as (ms & w0 & Wm & Ew). exists ms, w0. split; [exact Wm|]. rewrite Ew. f_equal. congruence. }
    apply tame_at_bind.
    { destruct (o_database opts); [apply tame_at_lift; discriminate|]. split; [intros _; apply whole_refl; reflexivity|exact I]. }
    intros u d' Eu _. apply Go; destruct (o_database opts); injection Eu as _ <-; (exact P || reflexivity).
  Qed.

  (** *** Changing the user *)
  Definition user_wraps (checks : bool) : Prop := forall bs msg nr w, arrives bs msg nr -> change_user_bad checks msg nr w -> S bs w.
  Lemma user_more cap msg m : fst (read_change_user_response cap msg) = Ok (CuMore m) -> exists rest, msg = x01 :: rest.
  Proof.
    clear S U. unfold read_change_user_response. destruct msg as [|b msg]; [discriminate|]. intros E. exists msg. f_equal. rewrite <- (n2b_b2n b).
    destruct (b2n b =? 255). { exfalso. unfold pmap, pbind in E. destruct (read_err_packet cap true (b :: msg)) as [[x|x|x|] r]; discriminate E. }
    destruct (b2n b =? 0). { exfalso. unfold pmap, pbind in E. destruct (read_ok_packet cap (b :: msg)) as [[x|x|x|] r]; discriminate E. }
    destruct (N.eqb_spec (b2n b) 1) as [->|_]; [reflexivity|].
    destruct (b2n b =? 254). { exfalso. unfold pmap, pbind in E. destruct (read_auth_switch (b :: msg)) as [[x|x|x|] r]; discriminate E. }
    discriminate E.
  Qed.
  Lemma rounds_user sha1 sha256 checks pw : user_wraps checks -> digests sha1 sha256 \/ (forall bs, S bs PArith) ->
    forall p, match p with Some p => quiet p | None => True end -> rounds S (fun fuel => change_user_loop sha1 sha256 checks pw fuel p).
  Proof.
    intros W D p Q f. revert p Q. induction f as [|f IH]; intros p Q c L; [lia|]. cbn [change_user_loop]. apply tame_at_recv. intros msg nr d E Ar P Wd.
    apply recv_takes in E.
    assert (Re : forall resp p', quiet p' -> (digests sha1 sha256 -> (length resp <= 32)%nat) ->
      tame_at (S (arriving c)) (_ <~ send_msg checks resp false ;; change_user_loop sha1 sha256 checks pw f (Some p')) d).
    { intros resp p' Q' Lr. apply tame_at_bind.
      - eapply tame_reply; [exact P| |].
        + destruct D as [D|D]; [left; apply short_packet; auto|right; apply D].
        + intros C N. eapply W; [exact Ar|]. right. auto.
      - intros u d' E' _. apply send_keeps in E'. assert (A : arriving d' = arriving d) by exact E'.
        destruct (IH (Some p') Q' d' ltac:(rewrite A; lia)) as [H1 H2]. split; [exact H1|]. destruct (fst (change_user_loop _ _ _ _ f (Some p') d')); auto.
        rewrite A in H2. destruct Wd as (ms & w0 & Wm & ->). eapply U; eassumption. }
    unfold tame_at. match goal with |- context [ibind (parse ?q ?b) ?k d] => apply (tame_at_bind (S (arriving c)) (parse q b) k d) end.
    { unfold parse. destruct (np_free _ (pf_change_user (c_cap d)) msg) as [[a ->]|[e ->]]; apply tame_at_lift; discriminate. }
    intros m d' Em _. injection Em as Em <-. destruct m as [err|sw|ok|more].
    - apply tame_whole; [apply tame_err|exact U|exact Wd].
    - pose proof (plugin_cases (sw_plugin sw)) as Pc. apply tame_at_bind; [destruct (new_auth_plugin (sw_plugin sw)); try contradiction; apply tame_at_lift; discriminate|].
      intros q d' Eq _. injection Eq as Eq <-. rewrite Eq in Pc. destruct Pc as [Qq _]. unfold gen_init_auth_resp.
      match goal with |- context [auth_next sha1 sha256 ?q ?i] => pose proof (auth_quiet sha1 sha256 q i (set_quiet _ _ Qq)) as X; destruct (auth_next sha1 sha256 q i) as [r p'] end.
      destruct X as (R & Q' & Lr). apply tame_at_bind; [destruct R as [[a ->]|[e ->]]; apply tame_at_lift; discriminate|].
      intros resp d' Ea _. injection Ea as -> <-. apply Re; [exact Q'|]. apply Lr. reflexivity.
    - apply tame_whole; [apply tame_ret|exact U|exact Wd].
    - destruct p as [p|].
      + pose proof (auth_quiet sha1 sha256 p (am_data more) Q) as X. destruct (auth_next sha1 sha256 p (am_data more)) as [r p']. destruct X as (R & Q' & Lr).
        apply tame_at_bind; [destruct R as [[a ->]|[e ->]]; apply tame_at_lift; discriminate|].
        intros resp d' Ea _. injection Ea as -> <-. apply Re; [exact Q'|]. apply Lr. reflexivity.
      + apply tame_at_lift; [|discriminate]. intros w Ew. injection Ew as <-. apply user_more in Em. eapply W; [exact Ar|]. left. auto.
  Qed.
  Lemma tame_change_user sha1 sha256 checks user pw db attrs : user_wraps checks -> digests sha1 sha256 \/ (forall bs, S bs PArith) ->
    (forall cap, goes checks (write_change_user cap (new_change_user user [] db (str "mysql_native_password") attrs))) ->
    tame S (conn_change_user sha1 sha256 checks user pw db attrs).
  Proof.
    intros W D G. apply (tame_cap S (fun n => _ <~ send_msg checks (write_change_user n (new_change_user user [] db (str "mysql_native_password") attrs)) true ;;
      fun c => change_user_loop sha1 sha256 checks pw (Datatypes.S (sched_len (c_rd c))) None c)); [reflexivity|]. intros n.
    apply tame_bind; [exact U|apply tame_sends; apply G|]. intros _. apply (tame_rounds S (fun fuel => change_user_loop sha1 sha256 checks pw fuel None)).
    apply rounds_user; auto.
  Qed.

  (** *** Events *)
  Lemma event_only crc self v bs : match fst (parse_event crc self v bs) with
    | Panic w => w = PArith /\ (13 <= length bs)%nat /\ announced_length bs < (if p_checksum self then 23 else 19) | Loop => False | _ => True end.
  Proof.
    clear S U. destruct (Nat.lt_ge_cases (length bs) 13) as [L|L].
    { destruct (parse_returns crc self v bs (or_introl L)) as [[a ->]|[e ->]]; exact I. }
    destruct (N.le_gt_cases (if p_checksum self then 23 else 19) (announced_length bs)) as [B|B].
    { destruct (parse_returns crc self v bs (or_intror B)) as [[a ->]|[e ->]]; exact I. }
    assert (X : only (fun _ w => w = PArith) (parse_event crc self v)).
    { assert (Up : upward (fun _ w => w = PArith)) by (repeat intro; assumption).
      assert (Pk : forall A (p : parser A), no_panic p -> no_panic (ppeek p)) by (intros A p H x; exact (H x)).
      assert (Rl : forall k, no_panic (read_len k)) by (intros k x; apply read_len_returns).
      assert (Cs : forall a b, only (fun _ w => w = PArith) (plift (csub a b))) by (intros a b x; unfold plift, csub; destruct (a <? b); cbn [fst]; auto).
      unfold parse_event. apply only_bind; [exact Up|destruct (p_checksum self && v); [apply suffix_checksum|pt]| |].
      - destruct (p_checksum self && v); [|apply only_free; pt]. unfold check_checksum. apply only_bind; [exact Up|pt|apply only_free, Pk; pt|]. intros h.
        apply only_bind; [exact Up|pt|apply only_free, Pk, Rl|]. intros raw. apply only_bind; [exact Up|pt|apply Cs|]. intros n. apply only_free.
        destruct (split_at n raw) as [x y]. pt. apply np_in_pattern. apply (panic_free_ok _ _ pf_le_u32).
      - intros _. apply only_bind; [exact Up|apply (tidy_suffix _ tidy_header)|apply only_free, np_header|]. intros h. apply only_bind; [exact Up|pt|apply Cs|]. intros n.
        apply only_bind; [exact Up|apply (good_suffix _ (good_read_len _))|apply only_free, Rl|]. intros data. apply only_bind; [exact Up|destruct (p_checksum self); pt| |].
        + destruct (p_checksum self); [|apply only_free; pt]. apply only_bind; [exact Up|pt|apply Cs|]. intros m. apply only_free. pt.
        + intros data'. apply only_free. destruct (event_kind_of (h_type h)); pt. }
    specialize (X bs). destruct (fst (parse_event crc self v bs)); auto.
  Qed.
  Definition event_wraps (checksum : bool) : Prop := forall bs msg nr w, arrives bs msg nr -> event_bad checksum msg nr w -> S bs w.
  Lemma rounds_event crc s : event_wraps (p_checksum (s_pv4 s)) -> rounds S (fun fuel => next_event_loop crc fuel s).
  Proof.
    intros W f. induction f as [|f IH]; intros c L; [lia|]. cbn [next_event_loop]. apply tame_at_bind.
    - unfold recv_and_parse_event. apply tame_at_recv. intros msg nr d E Ar P Wd. destruct msg as [|h msg]; [apply tame_at_lift; discriminate|].
      destruct (s_non_block s && (b2n h =? 254)); [apply tame_at_lift; discriminate|].
      destruct (N.eqb_spec (b2n h) 0) as [Z|Z]; cbn [negb]; [|apply tame_at_lift; discriminate].
      assert (h = x00) as -> by (rewrite <- (n2b_b2n h), Z; reflexivity).
      pose proof (event_only crc (s_pv4 s) (s_validate s) msg) as X. apply tame_at_bind.
      + unfold parse. apply tame_at_lift.
        * intros w Ew. rewrite Ew in X. eapply W; [exact Ar|]. destruct X as (X1 & X2 & X3). split; [exact X1|]. exists msg. auto.
        * intros Ew. rewrite Ew in X. exact X.
      + intros o d' _ _. apply tame_at_lift; discriminate.
    - intros e d R Wd. assert (T : (length (arriving d) < length (arriving c))%nat).
      { unfold recv_and_parse_event in R. apply ibind_inv in R. destruct R as (msg & d0 & R0 & R). apply recv_takes in R0.
        destruct msg as [|h msg]; [discriminate R|]. destruct (s_non_block s && (b2n h =? 254)); [injection R as _ <-; exact R0|].
        destruct (negb (b2n h =? 0)); [discriminate R|]. apply ibind_inv in R. destruct R as (o & d2 & Po & R). injection Po as _ <-. injection R as _ <-. exact R0. }
      destruct e as [e| |]; try (apply tame_at_lift; discriminate).
      destruct (IH d ltac:(lia)) as [H1 H2]. split; [exact H1|]. destruct (fst (next_event_loop crc f s d)); auto.
      destruct Wd as (ms & w0 & Wm & ->). eapply U; eassumption.
  Qed.
  Lemma tame_event crc s : event_wraps (p_checksum (s_pv4 s)) -> tame S (next_event crc s).
  Proof.
    intros W. destruct (s_completed s) eqn:C.
    - apply (tame_fun S _ (iret None)); [|apply tame_ret]. intros c. unfold next_event. rewrite C. reflexivity.
    - apply (tame_fun S _ (fun c => next_event_loop crc (Datatypes.S (sched_len (c_rd c))) s c)); [intros c; unfold next_event; rewrite C; reflexivity|].
      apply (tame_rounds S (fun fuel => next_event_loop crc fuel s)). apply rounds_event. exact W.
  Qed.
End Calls.

(** ** Streams *)
Lemma text_value_short : forall bs v rest s, read_text_value bs = (Ok v, rest) -> (length rest <= length bs)%nat /\ (v = Some s -> (length s <= length bs)%nat).
Proof.
  intros bs v rest s E. destruct (tidy_suffix _ tidy_text_value bs) as [u Eu]. rewrite E in Eu. cbn [snd] in Eu. split; [rewrite Eu, app_length; lia|].
  intros ->. unfold read_text_value in E. apply pbind_inv in E. destruct E as (l & mid & E1 & E2). destruct l; try discriminate E2. injection E2 as -> ->.
  apply read_les_bytes_inv in E1. destruct E1 as (enc & -> & _). rewrite !app_length. lia.
Qed.
Lemma text_row_short n bs row s : fst (read_text_row n bs) = Ok row -> In (Some s) row -> (length s <= length bs)%nat.
Proof.
  unfold read_text_row. unfold pbind at 1, plift at 1. destruct (with_capacity 32 n); try discriminate.
  generalize (N.to_nat n). clear n. intros n. revert bs row. induction n as [|n IH]; intros bs row E H; cbn [prepeat] in E.
  { injection E as <-. destruct H. }
  destruct (pbind read_text_value (fun a0 => pbind (prepeat n read_text_value) (fun l => pret (a0 :: l))) bs) as [r rest] eqn:Eq. cbn [fst] in E. subst r.
  apply pbind_inv in Eq. destruct Eq as (v & mid & E1 & E2). apply pbind_inv in E2. destruct E2 as (l & mid2 & E2 & E3). injection E3 as <- <-.
  destruct (text_value_short _ _ _ s E1) as [L1 L2]. destruct H as [->|H]; [apply L2; reflexivity|].
  specialize (IH mid l ltac:(rewrite E2; reflexivity) H). lia.
Qed.
Lemma row_source_msg i (c0 : conn) : forall f acc rs c o rs' d,
  whole_messages c0 c -> (forall s, acc = Some (Ok s) -> exists msg nr, arrives (arriving c0) msg nr /\ (length s <= length msg)%nat) ->
  while_rows f (map_next_row text_rows (fun row => get_col (non_null string_from_text) row i)) (fun first row => match first with None => Some row | Some _ => first end) acc rs c = (Ok (Some (Ok o)), rs', d) ->
  exists msg nr, arrives (arriving c0) msg nr /\ (length o <= length msg)%nat.
Proof.
  induction f as [|f IH]; intros acc rs c o rs' d W H E; [discriminate E|]. cbn [while_rows] in E.
  destruct (map_next_row text_rows _ rs c) as [[[[row|]|e|p|] rs2] c2] eqn:M; try discriminate E.
  - unfold map_next_row in M. unfold next_row in M. destruct (rs_completed rs); [discriminate M|].
    destruct (recv_msg c) as [[msg|e|p|] c3] eqn:R; try discriminate M. destruct (recv_arrives c msg c3 R) as (nr & Ar & _ & W3).
    destruct (next_row_msg text_rows (c_cap c) rs msg) as [[o'|e|p|] rs3] eqn:N; try discriminate M. destruct o' as [l|]; [|discriminate M].
    injection M as <- <- <-. eapply IH; [eapply whole_trans; [exact W|exact W3]| |exact E]. intros s Es. destruct acc as [y|]; [apply H; exact Es|].
    injection Es as Es. exists msg, nr. split. { destruct W as (ms & w0 & Wm & ->). eapply arrives_later; eassumption. }
    assert (Row : fst (text_rows rs msg) = Ok l).
    { unfold next_row_msg in N. destruct msg as [|b msg]; [discriminate N|]. destruct (_ && _).
      - destruct (contains (c_cap c) DEPRECATE_EOF); [destruct (fst (read_ok_packet (c_cap c) (b :: msg)))|destruct (fst (read_eof_packet (c_cap c) (b :: msg)))]; discriminate N.
      - destruct (fst (text_rows rs (b :: msg))); try discriminate N. injection N as <- _. reflexivity. }
    eapply text_row_short; [exact Row|]. cbv beta in Es. unfold get_col in Es. match type of Es with context [if ?b then _ else _] => destruct b end; [discriminate Es|].
    change text_value with (option bytes) in Es. destruct (nth_error l i) as [v|] eqn:Nth; [|discriminate Es]. apply nth_error_In in Nth. destruct v as [bs|]; [|discriminate Es].
    unfold non_null, string_from_text, from_utf8 in Es. destruct (utf8_valid bs); [|discriminate Es]. cbn [rbind] in Es. injection Es as <-. exact Nth.
  - injection E as -> _ _. apply H. reflexivity.
Qed.
Lemma var_message checks name global c o d : conn_get_var checks (non_null string_from_text) name global c = (Ok (Some o), d) ->
  exists msg nr, arrives (arriving c) msg nr /\ (length o <= length msg)%nat.
Proof.
  unfold conn_get_var. intros E. apply ibind_inv in E. destruct E as (rs & d1 & E1 & E). apply ibind_inv in E. destruct E as (x & d2 & E2 & E).
  destruct x as [[v|e|p|]|]; try discriminate E. injection E as -> _. unfold on_rs in E2. destruct (rs_first_or_none _ rs d1) as [[r rs'] d3] eqn:R.
  injection E2 as -> _. eapply row_source_msg; [| |exact R]; [|discriminate].
  assert (T : tame (fun _ _ => True) (query_qry checks (get_var_sql name global))).
  { apply tame_query_qry; [exact up_true|right; auto|intros bs msg nr _ _; exact I]. }
  specialize (T c). destruct T as [T _]. rewrite E1 in T. apply T. discriminate.
Qed.
Section Streams.
  Variable S : bytes -> panic -> Prop.
  Hypothesis U : up S.
  Definition stream_wraps (checks : bool) : Prop := forall bs msg nr w, arrives bs msg nr -> stream_bad checks msg nr w -> S bs w.
  Lemma tame_start checks checksum o : stream_wraps checks -> tame S (recv_stream_start checksum o).
  Proof.
    intros W c. unfold recv_stream_start. apply tame_at_recv. intros msg nr d E Ar P Wd. destruct msg as [|b ev]; [apply tame_at_lift; discriminate|].
    destruct (b2n b =? 255); [apply tame_whole; auto using tame_server_error|].
    destruct (b2n b =? 254).
    { apply tame_whole; [|exact U|exact Wd]. apply (tame_cap S (fun n => _ <~ parse (read_eof_packet n) (b :: ev) ;;
        iret (mk_stream (mk_parser [] false) (bo_validate o) true (bo_non_block o)))); [reflexivity|]. intros n. tm. }
    destruct (N.eqb_spec (b2n b) 0) as [Z|Z]; [|apply tame_at_lift; discriminate]. assert (b = x00) as -> by (rewrite <- (n2b_b2n b), Z; reflexivity).
    apply tame_at_bind.
    - assert (X : match check_rotate checksum ev with Panic w => w = PArith /\ (19 <= length ev < 23)%nat | Loop => False | _ => True end).
      { unfold check_rotate. destruct (header_cases ev) as [(h & rest & Eh & _ & L)|[e Eh]].
        - rewrite Eh. cbn [rbind]. destruct (h_type h); try exact I.
          assert (Rr : forall x, returns (rmap (fun _ => tt) (fst (read_rotate x)))).
          { intros x. destruct (np_free _ pf_rotate x) as [[a ->]|[e ->]]; unfold returns; cbn [rmap]; [left|right]; eexists; reflexivity. }
          destruct checksum.
          + unfold csub. destruct (N.ltb_spec (blen rest) 4) as [B|B].
            * cbn [rmap rbind]. split; [reflexivity|]. rewrite (header_rest _ _ _ Eh) in B. unfold blen in B. rewrite skipn_length in B. lia.
            * cbn [rmap rbind]. destruct (Rr (fst (split_at (blen rest - 4) rest))) as [[a ->]|[e ->]]; exact I.
          + cbn [rbind]. destruct (Rr rest) as [[a ->]|[e ->]]; exact I.
        - destruct (read_event_header ev) as [r rest]. cbn [fst] in Eh. subst r. exact I. }
      apply tame_at_lift; [|intros Y; rewrite Y in X; exact X]. intros w Ew. rewrite Ew in X. destruct X as [-> X]. eapply W; [exact Ar|].
      right. left. split; [reflexivity|]. exists ev. auto.
    - intros u d' Eu W'. apply tame_whole; [|exact U|eapply whole_trans; eassumption]. 
      clear c nr d d' E Ar P Wd Eu W' ev Z u; intros c. unfold recv_fde. apply tame_at_recv. intros msg nr d E Ar P Wd. destruct msg as [|b ev]; [apply tame_at_lift; discriminate|].
      change (read_u8 (b :: ev)) with (Ok (b2n b), ev). cbv iota. apply tame_at_bind.
      + pose proof (from_fde_only ev) as X. apply tame_at_lift; [|intros Y; rewrite Y in X; exact X]. intros w Ew. rewrite Ew in X. eapply W; [exact Ar|].
        right. right. left. exists b, ev. split; [reflexivity|exact X].
      + intros [pv x] d' _ _. apply tame_at_lift; discriminate.
  Qed.
  Lemma param_size id (s : bytes) : (length (write_stmt_execute id [to_col (AString s)]) <= length s + 40)%nat.
  Proof.
    clear S U. assert (X : forall l, (length (lei_write (lei_from l)) <= 9)%nat).
    { intros l. unfold lei_write, lei_from. repeat match goal with |- context [if ?b then _ else _] => destruct b end; cbn; lia. }
    unfold write_stmt_execute. cbn [map flat_map]. rewrite !app_length. change (write_binary_value (sv_val (to_col (AString s)))) with (les_write (LesBytes s)).
    unfold les_write. rewrite app_length. specialize (X (blen s)). cbn. cbn in X. lia.
  Qed.
  Lemma goes_small checks msg : checks = false \/ N.of_nat (length msg) < 2 ^ 31 + 200 -> goes S checks msg.
  Proof. clear U. intros H. left. apply small_fits. exact H. Qed.
  Lemma tame_required {V} checks (from : option bytes -> res V) name missing : (length name <= 32)%nat -> query_wraps S -> (forall v, returns (from v)) ->
    tame S (get_required checks from name missing).
  Proof.
    intros L Q R. unfold get_required. apply tame_bind; [exact U| |].
    - apply tame_get_var; [exact U| |exact Q| |].
      + apply goes_small. right. unfold write_query, write_bytes.
        change (get_var_sql name true) with (str "SHOW GLOBAL VARIABLES LIKE '" ++ name ++ str "'"). rewrite !app_length.
        change (length (str "SHOW GLOBAL VARIABLES LIKE '")) with 28%nat. change (length (str "'")) with 1%nat. change (length (write_u8 (command_byte CmdQuery))) with 1%nat. change (2 ^ 31 + 200) with 2147483848. lia.
      + intros v bs w E. destruct (R v) as [[a X]|[e X]]; congruence.
      + intros v E. destruct (R v) as [[a X]|[e X]]; congruence.
    - intros [v|]; tm.
  Qed.
  Lemma tame_at_wide {A} (m : io A) c d : whole_messages c d -> S (arriving c) PArith -> tame (fun bs w => S bs w \/ w = PArith) m -> tame_at (S (arriving c)) m d.
  Proof.
    intros (ms & w0 & W & E) H T. eapply tame_at_weak; [|apply (T d)]. intros w [X| ->]; [|exact H]. rewrite E. eapply U; eassumption.
  Qed.
  Lemma up_wide : up (fun bs w => S bs w \/ w = PArith).
  Proof. intros e w0 t w W [H|H]; [left; eapply U; eassumption|right; exact H]. Qed.
End Streams.
Lemma tame_set_string S checks name (s : bytes) : up S -> exec_wraps S -> (length name <= 32)%nat -> sendable checks s -> tame S (conn_set_user_var checks name (to_col (AString s))).
Proof.
  intros U X L H. apply tame_set_user_var; [exact U| | |exact X].
  - apply goes_small. right. unfold write_stmt_prepare, write_bytes. rewrite !app_length. change (2 ^ 31 + 200) with 2147483848. cbn. lia.
  - intros id. apply goes_small. destruct H as [H|H]; [left; exact H|right]. pose proof (param_size id s). lia.
Qed.
Lemma tame_stream S checks uuid id o : up S -> stream_wraps S checks ->
  (sendable checks uuid /\ (checks = false \/ (forall mode sid, N.of_nat (length (stream_request mode sid o)) < 2 ^ 31))) \/ (forall bs, S bs PArith) ->
  tame S (request_stream checks uuid id o).
Proof.
  intros U W Ho. assert (Q : query_wraps S) by (intros bs msg nr Ar H; eapply W; [exact Ar|left; split; [exact H|reflexivity]]).
  assert (X : exec_wraps S) by (intros bs nr Ar; eapply Q; [exact Ar|left; reflexivity]).
  assert (Q' : query_wraps (fun bs w => S bs w \/ w = PArith)) by (intros bs msg nr Ar H; left; eapply Q; eassumption).
  assert (X' : exec_wraps (fun bs w => S bs w \/ w = PArith)) by (intros bs nr Ar; left; eapply X; eassumption).
  unfold request_stream. apply tame_bind; [exact U| |].
  { apply tame_required; [exact U|cbn; lia|exact Q|]. intros v. apply (text_returns (parse_u 32) v (parse_u_returns 32)). }
  intros master. apply tame_bind; [exact U| |].
  { apply tame_set_user_var; [exact U| | |exact X]; [apply goes_small; right; cbn; lia|]. intros i. apply goes_small. right. cbn. lia. }
  intros _ c. apply tame_at_bind; [apply (tame_required S U); [cbn; lia|exact Q|apply string_returns]|].
  intros sum d E Wd.
  assert (M : exists msg nr, arrives (arriving c) msg nr /\ (length sum <= length msg)%nat).
  { unfold get_required in E. apply ibind_inv in E. destruct E as (v & d' & E & E'). destruct v as [v|]; [|discriminate E'].
    injection E' as -> _. eapply var_message. exact E. }
  apply tame_at_bind.
  - destruct M as (msg & nr & Ar & L). destruct (N.lt_ge_cases (N.of_nat (length sum)) (2 ^ 31)) as [Ls|Ls].
    + apply tame_whole; [|exact U|exact Wd]. apply tame_set_string; [exact U|exact X|cbn; lia|right; exact Ls].
    + destruct checks.
      * apply (tame_at_wide S U); [exact Wd| |].
        { eapply W; [exact Ar|]. right. right. right. split; [reflexivity|]. split; [reflexivity|]. lia. }
        apply tame_set_user_var; [apply up_wide; exact U|right; intros; right; reflexivity|intros; right; intros; right; reflexivity|exact X'].
      * apply tame_whole; [|exact U|exact Wd]. apply tame_set_string; [exact U|exact X|cbn; lia|left; reflexivity].
  - intros u d2 _ W2. apply tame_whole; [|exact U|eapply whole_trans; eassumption].
    apply tame_bind; [exact U|apply (tame_required S U); [cbn; lia|exact Q|apply string_returns]|]. intros mode.
    apply tame_bind; [exact U|apply (tame_required S U); [cbn; lia|exact Q|apply string_returns]|]. intros suuid.
    apply tame_bind; [exact U| |].
    { destruct Ho as [[Hu _]|Ho]; [apply tame_set_string; [exact U|exact X|cbn; lia|exact Hu]|].
      apply tame_set_user_var; [exact U|right; exact Ho|intros; right; exact Ho|exact X]. }
    intros _. cbv zeta.
    apply tame_bind; [exact U|apply tame_simple; [exact U|]; apply goes_small; right; cbn; lia|]. intros _.
    apply tame_bind; [exact U| |].
    { apply tame_sends. destruct Ho as [[_ [Ho|Ho]]|Ho]; [left; left; exact Ho|apply goes_small; right|right; exact Ho].
      match goal with |- context [stream_request ?m ?i o] => specialize (Ho m i) end. lia. }
    intros _. apply (tame_start S U checks). exact W.
Qed.

(** ** Whole programs *)
Definition any : bytes -> panic -> Prop := fun _ _ => True.
Lemma tame_attempt S {A} (m : io A) : tame S m -> tame S (attempt m).
Proof.
  intros H c. specialize (H c). unfold tame_at, attempt in *. destruct (m c) as [[a|e|p|] d]; cbn [fst snd] in *.
  - destruct H as [H _]. split; [|exact I]. intros _. apply H. discriminate.
  - destruct H as [H _]. destruct e; cbn [fst snd]; (split; [|exact I]); try (intros _; apply H; discriminate); intros X; exfalso; apply X; reflexivity.
  - destruct H as [H K]. split; [|exact K]. intros _. apply H. discriminate.
  - destruct H as [_ H]. destruct H.
Qed.
Lemma gentle_source {A} (next : rs_io (option A)) : row_source next -> exists good, gentle any next good /\ forall rs, good rs.
Proof.
  assert (T : gentle any (next_row text_rows) (fun _ => True)).
  { apply gentle_next; [auto|intros; exact I|]. intros rs msg. apply text_row_exact. }
  assert (B : gentle any (next_row binary_rows) (fun _ => True)).
  { apply gentle_next; [auto|intros; exact I|]. intros rs msg E. pose proof (binary_row_only (rs_col_types rs) msg) as X. unfold binary_rows in E. rewrite E in X. exact X. }
  intros []; exists (fun _ => True); (split; [|auto]); auto; apply gentle_map; auto using up_true; exact up_true.
Qed.
Lemma program_tame sha1 sha256 crc checks : forall A (m : io A), program sha1 sha256 crc checks m -> tame any m.
Proof.
  assert (U : up any) by exact up_true.
  assert (G : forall msg, goes any checks msg) by (intros; right; intros; exact I).
  assert (X : exec_wraps any) by (intros ? ? ?; exact I). assert (Q : query_wraps any) by (intros ? ? ? ? ?; exact I).
  assert (P : forall bs, any bs PArith) by (intros; exact I).
  intros A m H. induction H.
  - intros c. apply tame_at_lift; [intros; exact I|assumption].
  - apply tame_bind; assumption.
  - apply tame_attempt. assumption.
  - apply tame_recv.
  - intros c. apply tame_at_send. right. exact I.
  - apply tame_login; [exact U|intros ? ? ? ? ? ?; exact I|right; exact P].
  - apply tame_sends. apply G.
  - apply tame_simple; auto.
  - apply tame_simple; auto.
  - apply tame_simple; auto.
  - apply tame_simple; auto.
  - apply tame_simple; auto.
  - unfold conn_reset_connection. apply tame_bind; [exact U|apply tame_sends, G|]. intros _. apply tame_com_response. exact U.
  - apply tame_simple; auto.
  - apply tame_fields; auto.
  - apply tame_statistics; auto.
  - apply tame_debug; auto.
  - apply tame_ping; auto.
  - apply tame_multi; auto.
  - apply tame_bind; [exact U|apply tame_sends, G|]. intros _. apply tame_new_rs; auto.
  - apply tame_change_user; [exact U|intros ? ? ? ? ? ?; exact I|right; exact P|auto].
  - apply tame_files; auto.
  - apply tame_get_var; auto. intros; exact I.
  - apply tame_set_var; auto.
  - apply tame_get_user_var; auto. intros; exact I.
  - apply tame_set_user_var; auto.
  - apply tame_query_exec; auto.
  - apply tame_query_qry; auto.
  - apply tame_prepare; auto.
  - apply tame_stmt_exec; auto.
  - apply tame_exec_close; auto.
  - apply tame_stmt_qry; auto.
  - apply tame_stmt_close.
  - destruct (gentle_source next H) as (good & Gn & Hg). eapply tame_row_call; [exact U|exact Gn|apply Hg|constructor].
  - destruct (gentle_source next H) as (good & Gn & Hg). eapply tame_row_call; [exact U|exact Gn|apply Hg|constructor].
  - destruct (gentle_source next H) as (good & Gn & Hg). eapply tame_row_call; [exact U|exact Gn|apply Hg|constructor].
  - destruct (gentle_source next H) as (good & Gn & Hg). eapply tame_row_call; [exact U|exact Gn|apply Hg|constructor].
  - destruct (gentle_source next H) as (good & Gn & Hg). eapply tame_row_call; [exact U|exact Gn|apply Hg|constructor].
  - apply tame_rs_close; auto.
  - apply tame_stream; [exact U|intros ? ? ? ? ? ?; exact I|right; exact P].
  - apply tame_event; [exact U|]. intros ? ? ? ? ? ?. exact I.
Qed.
