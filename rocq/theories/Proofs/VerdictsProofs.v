(** * What calls report *)
From Coq Require Import List NArith ZArith Lia Arith Bool.
From Verif Require Import Model.Base Model.BytesParser Model.LenEnc Model.Utf8 Model.Conn Model.Flags Model.Packet Model.Auth Model.Cmd Model.Col Model.Row Model.Stmt
  Model.Extract Model.Session Model.Event Model.Stream Spec.Nums Spec.LenEncSpec Spec.Framing Spec.Programs Spec.Packets Spec.ResultSets Spec.Hostile Spec.HostileExact Spec.Accepts Spec.AcceptsEvents Spec.Verdicts
  Proofs.BaseLemmas Proofs.BytesParserProofs Proofs.ConnProofs Proofs.AuthProofs Proofs.CommandProofs Proofs.SessionProofs Proofs.ScheduleProofs Proofs.HostileProofs Proofs.HostileExactProofs
  Proofs.AcceptsProofs Proofs.AcceptsPackets Proofs.AcceptsRows Proofs.AcceptsEvents Proofs.AcceptsBodies.
Import ListNotations.
Open Scope N_scope.

(** ** Decoders never speak for the server *)
Definition own (e : error) : Prop := match e with ESql _ _ _ _ => False | _ => True end.
Definition plain {A} (p : parser A) : Prop := forall bs e, fst (p bs) = Err e -> own e.
Lemma pl_ret {A} (a : A) : plain (pret a). Proof. intros bs e [=]. Qed.
Lemma pl_fail {A} e : own e -> plain (A := A) (pfail e). Proof. intros H bs e' [= <-]. exact H. Qed.
Lemma pl_bind {A B} (p : parser A) (f : A -> parser B) : plain p -> (forall a, plain (f a)) -> plain (pbind p f).
Proof.
  intros P F bs e. unfold pbind. specialize (P bs). destruct (p bs) as [[a|e'| |] r]; cbn [fst] in *; try discriminate; [apply F|].
  intros [= <-]. apply P. reflexivity.
Qed.
Lemma pl_map {A B} (f : A -> B) p : plain p -> plain (pmap f p). Proof. intros P. apply pl_bind; [exact P|]. intros. apply pl_ret. Qed.
Lemma pl_lift {A} (r : res A) : (forall e, r = Err e -> own e) -> plain (plift r). Proof. intros H bs e. exact (H e). Qed.
Lemma pl_take n : plain (take n).
Proof. intros bs e. unfold take. destruct (_ <? _)%nat; cbn [fst]; intros [= <-]. exact I. Qed.
Lemma pl_len n : plain (read_len n).
Proof. intros bs e. unfold read_len. destruct (_ <? _); cbn [fst]; intros [= <-]. exact I. Qed.
Lemma pl_u8 : plain read_u8. Proof. intros [|b bs] e; cbn [read_u8 fst]; intros [= <-]. exact I. Qed.
Lemma pl_rest : plain read_rest. Proof. intros bs e [=]. Qed.
Lemma pl_utf8 s : plain (plift (from_utf8 s)).
Proof. apply pl_lift. intros e. unfold from_utf8. destruct (utf8_valid s); intros [= <-]. exact I. Qed.
Lemma pl_column_type n : plain (plift (column_type_of n)).
Proof.
  apply pl_lift. intros e. unfold column_type_of.
  repeat match goal with
  | |- (match ?q with _ => _ end) = Err _ -> _ => destruct q
  | |- Ok _ = Err _ -> _ => intros [=]
  | |- Err _ = Err _ -> _ => intros [= <-]; exact I
  end.
Qed.
Ltac pl := repeat first
  [ assumption | apply pl_ret | apply pl_u8 | apply pl_len | apply pl_take | apply pl_rest | apply pl_utf8 | apply pl_column_type
  | apply pl_fail; exact I | apply pl_map | (apply pl_bind; [|intros])
  | match goal with
    | |- plain (match ?x with _ => _ end) => destruct x
    | |- plain (ppanic _) => intros ? ? [=]
    | |- plain _ => progress unfold read_le_u16, read_le_u32, read_le_u64, read_le_u24, status_from_bits
    end ].
Lemma pl_head {A} (f : byte -> bytes -> parser A) : (forall b r, plain (f b r)) ->
  plain (fun bs => match bs with [] => (Err (EIncomplete None), bs) | b :: r => f b r bs end).
Proof. intros H [|b r] e; [intros [= <-]; exact I|apply H]. Qed.
Lemma pl_lei : plain read_len_enc_int.
Proof. unfold read_len_enc_int. apply (pl_head (fun _ _ => _)). intros _ _. pl. Qed.
Lemma pl_les : plain read_len_enc_str. Proof. pose proof pl_lei. unfold read_len_enc_str. pl. Qed.
Lemma pl_les_string : plain read_les_string.
Proof.
  pose proof pl_les. unfold read_les_string. pl. apply pl_lift. intros e. unfold les_into_string, from_utf8.
  destruct a; try (intros [=]; fail). destruct (utf8_valid bs); intros [= <-]. exact I.
Qed.
Lemma pl_lei_u64 : plain read_lei_u64. Proof. pose proof pl_lei. unfold read_lei_u64. pl. Qed.
Lemma pl_les_bytes : plain read_les_bytes. Proof. pose proof pl_les. unfold read_les_bytes. pl. Qed.
Lemma pl_ok cap : plain (read_ok_packet cap). Proof. pose proof pl_lei_u64. pose proof pl_les_bytes. unfold read_ok_packet. pl. Qed.
Lemma pl_err cap sql : plain (read_err_packet cap sql). Proof. unfold read_err_packet. pl. Qed.
Lemma pl_eof cap : plain (read_eof_packet cap). Proof. unfold read_eof_packet. pl. Qed.
Lemma pl_coldef fl : plain (read_column_def fl). Proof. pose proof pl_les_string. pose proof pl_lei. unfold read_column_def. pl. Qed.
Lemma pl_prepare : plain read_stmt_prepare_ok. Proof. unfold read_stmt_prepare_ok. pl. Qed.
Ltac plh := apply (pl_head (fun _ _ => _)); intros ? _; pl.
Lemma pl_com cap : plain (read_com_response cap). Proof. pose proof (pl_ok cap). pose proof (pl_err cap true). unfold read_com_response. plh. Qed.
Lemma pl_field_list cap : plain (read_field_list_response cap true). Proof. pose proof (pl_eof cap). pose proof (pl_err cap true). pose proof (pl_coldef true). unfold read_field_list_response. plh. Qed.
Lemma pl_debug cap : plain (read_debug_response cap). Proof. pose proof (pl_eof cap). pose proof (pl_err cap true). unfold read_debug_response. plh. Qed.
Lemma pl_set_option cap : plain (read_set_option_response cap). Proof. pose proof (pl_eof cap). pose proof (pl_err cap true). unfold read_set_option_response. plh. Qed.

(** ** Composition *)
Lemma wire_join a : forall b wa wb, messages_wire a wa -> messages_wire b wb -> messages_wire (a ++ b) (wa ++ wb).
Proof.
  induction a as [|m a IH]; intros b wa wb H Hb; inversion H; subst; cbn [app]; [exact Hb|]. rewrite <- app_assoc. econstructor; eauto.
Qed.
Lemma rp_iff {A} (m : io A) c L L' : (forall v ms, L v ms <-> L' v ms) -> reports m c L -> reports m c L'.
Proof.
  intros I R v rest. rewrite (R v rest). split; intros (ms & w & W & E & H); exists ms, w; repeat split; auto; apply I; exact H.
Qed.
Lemma rp_lift {A} (r : res A) c : reports (ilift r) c (fun v ms => told r v /\ ms = []).
Proof.
  intros v rest. cbn [ilift fst snd]. split.
  - intros [T <-]. exists [], []. repeat split; auto using msw_nil.
  - intros (ms & w & W & E & T & ->). inversion W; subst. split; [exact T|exact E].
Qed.
Lemma rp_ret {A} (a : A) c : reports (iret a) c (fun v ms => v = Done a /\ ms = []).
Proof.
  eapply rp_iff; [|exact (rp_lift (Ok a) c)]. intros v ms. cbv beta. destruct v; cbn [told]; split; intros [H ->]; split; congruence.
Qed.
Lemma rp_none {A} (m : io A) c L : (forall v, ~ told (fst (m c)) v) -> (forall v ms, ~ L v ms) -> reports m c L.
Proof. intros H N v rest. split; [intros [T _]; destruct (H _ T)|]. intros (ms & w & _ & _ & X). destruct (N _ _ X). Qed.
Lemma rp_recv {A} (f : bytes -> io A) c L : (forall v, ~ L v []) ->
  (forall m d, recv_msg c = (Ok m, d) -> c_cap d = c_cap c -> (length (arriving d) < length (arriving c))%nat -> reports (f m) d (fun v ms => L v (m :: ms))) ->
  reports (ibind recv_msg f) c L.
Proof.
  intros N H v rest. destruct (recv_msg_total c) as [(seqs & m & w & r & d & E & W & D & D1)|(d & E)].
  - pose proof (recv_next _ _ _ E) as (_ & _ & Cd & Sh). rewrite (ibind_ok _ _ _ _ _ E). rewrite (H m d E Cd Sh v rest). clear H. split.
    + intros (ms & w' & W' & E' & X). exists (m :: ms), (w ++ w'). repeat split; [econstructor; eauto| |exact X].
      unfold arriving in *. rewrite D, <- D1, E', app_assoc. reflexivity.
    + intros (ms & w' & W' & E' & X). destruct ms as [|m' ms]; [destruct (N _ X)|]. inversion W' as [|? w1 ? ws ? M1 M2]; subst. unfold arriving in *.
      rewrite <- app_assoc in E'. destruct (recv_msg_spec _ _ _ c _ M1 E') as (d' & E2 & D2 & _). rewrite E in E2. injection E2 as <- <-.
      exists ms, ws. repeat split; [exact M2|exact D2|exact X].
  - rewrite (ibind_err _ _ _ _ _ E). split.
    + intros [T _]. destruct v; discriminate T.
    + intros (ms & w' & W' & E' & X). destruct ms as [|m' ms]; [destruct (N _ X)|]. inversion W' as [|? w1 ? ws ? M1 M2]; subst. unfold arriving in *.
      rewrite <- app_assoc in E'. destruct (recv_msg_spec _ _ _ c _ M1 E') as (d' & E2 & _). congruence.
Qed.
Lemma rp_bind {A B} (m : io A) (f : A -> io B) c L1 L2 : reports m c L1 -> (forall a d, m c = (Ok a, d) -> reports (f a) d (L2 a)) ->
  reports (ibind m f) c (fun v ms => (exists a ms1 ms2, ms = ms1 ++ ms2 /\ L1 (Done a) ms1 /\ L2 a v ms2) \/
    match v with Refused a b s t => L1 (Refused a b s t) ms | Done _ => False end).
Proof.
  intros R1 R2 v rest. destruct (m c) as [r d] eqn:E. split.
  - destruct r as [a|e| |].
    + rewrite (ibind_ok _ _ _ _ _ E). intros T. apply (R2 a d eq_refl) in T. destruct T as (ms2 & w2 & W2 & E2 & X2).
      specialize (R1 (Done a) (arriving d)). rewrite E in R1. destruct (proj1 R1 (conj eq_refl eq_refl)) as (ms1 & w1 & W1 & E1 & X1).
      exists (ms1 ++ ms2), (w1 ++ w2). split; [apply wire_join; assumption|]. split; [rewrite E1, E2, app_assoc; reflexivity|]. left. exists a, ms1, ms2. auto.
    + rewrite (ibind_err _ _ _ _ _ E). cbn [fst snd]. intros [T <-]. destruct v as [|a b s t]; [discriminate T|]. cbn [told] in T.
      specialize (R1 (Refused a b s t) (arriving d)). rewrite E in R1. cbn [told fst snd] in R1.
      destruct (proj1 R1) as (ms1 & w1 & W1 & E1 & X1); [split; congruence|]. exists ms1, w1. auto.
    + unfold ibind. rewrite E. cbn [fst snd]. intros [T _]. destruct v; discriminate T.
    + unfold ibind. rewrite E. cbn [fst snd]. intros [T _]. destruct v; discriminate T.
  - intros (ms & w & W & Ew & X). destruct X as [(a & ms1 & ms2 & -> & X1 & X2)|X].
    + apply messages_wire_app in W. destruct W as (w1 & w2 & W1 & W2 & ->). rewrite <- app_assoc in Ew.
      destruct (proj2 (R1 (Done a) (w2 ++ rest)) (ex_intro _ ms1 (ex_intro _ w1 (conj W1 (conj Ew X1))))) as [T D]. rewrite E in T, D. cbn [told fst snd] in T, D. subst r.
      rewrite (ibind_ok _ _ _ _ _ E). apply (R2 a d eq_refl). exists ms2, w2. auto.
    + destruct v as [|a b s t]; [destruct X|].
      destruct (proj2 (R1 (Refused a b s t) rest) (ex_intro _ ms (ex_intro _ w (conj W (conj Ew X))))) as [T D]. rewrite E in T, D. cbn [told fst snd] in T, D. subst r.
      rewrite (ibind_err _ _ _ _ _ E). cbn [told fst snd]. auto.
Qed.
(** decoding takes no message *)
Lemma rp_parse {A B} (p : parser A) lay msg (f : A -> io B) c L : takes_message p lay -> plain p ->
  (forall a, lay a msg -> reports (f a) c L) -> (forall v ms, L v ms -> exists a, lay a msg) -> reports (ibind (parse p msg) f) c L.
Proof.
  intros T P H X. destruct (fst (p msg)) as [a|e| |] eqn:E.
  - intros v rest. replace (ibind (parse p msg) f c) with (f a c); [apply H, T, E|]. unfold ibind, parse, ilift. rewrite E. reflexivity.
  - apply rp_none.
    + intros v. unfold ibind, parse, ilift. rewrite E. cbn [fst]. apply P in E. intros Y. destruct v; cbn [told] in Y; [discriminate|]. injection Y as ->. exact E.
    + intros v ms Y. destruct (X v ms Y) as (a & Y'). apply T in Y'. congruence.
  - apply rp_none.
    + intros v. unfold ibind, parse, ilift. rewrite E. cbn [fst]. intros Y. destruct v; discriminate Y.
    + intros v ms Y. destruct (X v ms Y) as (a & Y'). apply T in Y'. congruence.
  - apply rp_none.
    + intros v. unfold ibind, parse, ilift. rewrite E. cbn [fst]. intros Y. destruct v; discriminate Y.
    + intros v ms Y. destruct (X v ms Y) as (a & Y'). apply T in Y'. congruence.
Qed.
Lemma rp_sent {A} checks msg (k : unit -> io A) c L : accepting (c_ws c) -> checks = false \/ packet_count (blen msg) <= 255 ->
  (forall d, c_cap d = c_cap c -> reports (k tt) d L) -> reports (ibind (send_msg checks msg true) k) c L.
Proof.
  intros Ac Ck H. destruct (send_msg_spec checks c msg true Ac) as (seqs & w & d & E & _ & _ & _ & _ & _ & Ad & Sb); [reflexivity|exact Ck|].
  pose proof (send_keeps _ _ _ _ _ _ E) as K. destruct Sb as (_ & Sb & _). specialize (H d).
  intros v rest. rewrite (ibind_ok _ _ _ _ _ E). rewrite <- K. apply H. congruence.
Qed.
Lemma rp_rounds {A} (loop : nat -> io A) c L : (forall f, (length (arriving c) < f)%nat -> reports (loop f) c L) -> reports (fun c => loop (S (sched_len (c_rd c))) c) c L.
Proof. intros H. apply (H (S (sched_len (c_rd c)))). pose proof (delivered_sched (fun x => x) (fun x => x) (c_rd c)). unfold arriving. lia. Qed.

Lemma rp_now {A} (f : conn -> io A) d L : reports (f d) d L -> reports (fun c => f c c) d L.
Proof. intros H. exact H. Qed.

(** ** Messages *)
Lemma starts_same a b m : starts_with a m -> starts_with b m -> a = b.
Proof. intros (r & ->) (r' & H). congruence. Qed.
Lemma err_one cap p q m : err_layout cap true p m -> err_layout cap true q m -> p = q.
Proof. intros H H'. apply (accepts_err cap true) in H, H'. congruence. Qed.
Lemma starts_dec b x r : (b2n x =? b2n b = true -> starts_with b (x :: r)) /\ (b2n x =? b2n b = false -> ~ starts_with b (x :: r)).
Proof.
  split; [intros H; apply N.eqb_eq, b2n_inj in H; subst; eexists; reflexivity|]. intros H (r' & E). injection E as -> _. rewrite N.eqb_refl in H. discriminate.
Qed.
Lemma utf8_told s : from_utf8 s = if utf8_valid s then Ok s else Err EUtf8. Proof. reflexivity. Qed.
Lemma rp_error {A} cap p m c : starts_with xff m -> err_layout cap true p m -> reports (A := A) (ierr (error_of_err_packet p)) c (fun v ms => refusal cap v (m :: ms)).
Proof.
  intros S Lp. eapply rp_iff; [|exact (rp_lift (Err (error_of_err_packet p)) c)]. intros v ms. cbv beta.
  unfold error_of_err_packet. rewrite !utf8_told. split.
  - intros [T ->]. exists p, m. destruct v; [discriminate T|]. cbn [told] in T.
    destruct (utf8_valid (er_state p)); [|discriminate]. destruct (utf8_valid (er_message p)); [|discriminate]. injection T as <- <- <- <-. auto 10.
  - intros (q & m' & E & _ & Lq & U1 & U2 & ->). injection E as <- ->. rewrite (err_one _ _ _ _ Lp Lq), U1, U2. split; reflexivity.
Qed.
Lemma refusal_start {A} cap (v : verdict A) m ms : refusal cap v (m :: ms) -> starts_with xff m /\ exists p, err_layout cap true p m.
Proof. intros (p & m' & E & S & Lp & _). injection E as <- _. eauto. Qed.
Lemma rp_server {A} m c : starts_with xff m -> reports (A := A) (server_error m) c (fun v ms => refusal (c_cap c) v (m :: ms)).
Proof.
  intros S. change (reports (A := A) (e <~ parse (read_err_packet (c_cap c) true) m ;; ierr (error_of_err_packet e)) c (fun v ms => refusal (c_cap c) v (m :: ms))).
  apply (rp_parse _ _ _ _ _ _ (accepts_err (c_cap c) true) (pl_err _ _)); [intros p Lp; apply rp_error; assumption|].
  intros v ms H. apply refusal_start in H. tauto.
Qed.
Lemma no_refusal {A} cap (v : verdict A) : ~ refusal cap v []. Proof. intros (p & m & E & _). discriminate E. Qed.
Lemma not_plain cap v : ~ plain_reply cap v [].
Proof. intros [(_ & m & E & _)|H]; [discriminate E|exact (no_refusal _ _ H)]. Qed.
Lemma plain_ok cap v m ms : completion cap m -> (v = Done tt /\ ms = []) <-> plain_reply cap v (m :: ms).
Proof.
  intros C. split.
  - intros [-> ->]. left. eauto.
  - intros [(-> & m' & E & _)|H]; [injection E as <- ->; auto|]. apply refusal_start in H. destruct H as [H _]. destruct C as [C _].
    pose proof (starts_same _ _ _ H C). discriminate.
Qed.
Lemma plain_err cap v m ms : starts_with xff m -> refusal cap v (m :: ms) <-> plain_reply cap v (m :: ms).
Proof.
  intros S. split; [intros H; right; exact H|]. intros [(-> & m' & E & C & _)|H]; [injection E as <- ->|exact H].
  pose proof (starts_same _ _ _ S C). discriminate.
Qed.

(** ** The commands answered by OK or ERR *)
Lemma com_reports c : reports recv_com_response c (plain_reply (c_cap c)).
Proof.
  unfold recv_com_response. apply rp_recv; [apply not_plain|]. intros m d E Cd _. rewrite <- Cd.
  apply (rp_now (fun c => r <~ parse (read_com_response (c_cap c)) m ;; match r with CrOk _ => iret tt | CrErr e => ierr (error_of_err_packet e) end)).
  apply (rp_parse _ _ _ _ _ _ (accepts_com_response (c_cap d)) (pl_com _)).
  - intros [p|p] [S Lp].
    + eapply rp_iff; [|apply rp_ret]. intros v ms. apply plain_ok. split; eauto.
    + eapply rp_iff; [|apply (rp_error (c_cap d) p m); assumption]. intros v ms. apply plain_err, S.
  - intros v ms [(-> & m' & E1 & C & p & Lp)|H]; [injection E1 as <- ->; exists (CrOk p); split; assumption|].
    apply refusal_start in H. destruct H as [S (p & Lp)]. exists (CrErr p). split; assumption.
Qed.

(** ** EOF or ERR, a ping, text *)
Lemma not_eof cap v : ~ eof_reply cap v [].
Proof. intros [(_ & m & E & _)|H]; [discriminate E|exact (no_refusal _ _ H)]. Qed.
Lemma eof_ok cap v m ms : starts_with xfe m -> end_of_data cap m -> (v = Done tt /\ ms = []) <-> eof_reply cap v (m :: ms).
Proof.
  intros S C. split.
  - intros [-> ->]. left. eauto.
  - intros [(-> & m' & E & _)|H]; [injection E as <- ->; auto|]. apply refusal_start in H. destruct H as [H _].
    pose proof (starts_same _ _ _ H S). discriminate.
Qed.
Lemma eof_err cap v m ms : starts_with xff m -> refusal cap v (m :: ms) <-> eof_reply cap v (m :: ms).
Proof.
  intros S. split; [intros H; right; exact H|]. intros [(-> & m' & E & C & _)|H]; [injection E as <- ->|exact H].
  pose proof (starts_same _ _ _ S C). discriminate.
Qed.
Lemma debug_reports checks c : accepting (c_ws c) -> reports (conn_debug checks) c (eof_reply (c_cap c)).
Proof.
  intros Ac. unfold conn_debug. apply rp_sent; [exact Ac|right; vm_compute; discriminate|]. intros c1 C1. rewrite <- C1. apply rp_recv; [apply not_eof|]. intros m d E Cd _. rewrite <- Cd.
  apply (rp_now (fun c => r <~ parse (read_debug_response (c_cap c)) m ;; match r with DbEof _ => iret tt | DbErr e => ierr (error_of_err_packet e) end)).
  apply (rp_parse _ _ _ _ _ _ (accepts_debug (c_cap d)) (pl_debug _)).
  - intros [p|p] [S Lp].
    + eapply rp_iff; [|apply rp_ret]. intros v ms. apply eof_ok; [exact S|]. eexists. exact Lp.
    + eapply rp_iff; [|apply (rp_error (c_cap d) p m); assumption]. intros v ms. apply eof_err, S.
  - intros v ms [(-> & m' & E1 & S & p & Lp)|H]; [injection E1 as <- ->; exists (DbEof p); split; assumption|].
    apply refusal_start in H. destruct H as [S (p & Lp)]. exists (DbErr p). split; assumption.
Qed.
Lemma set_option_reports checks b c : accepting (c_ws c) -> reports (conn_set_multi_stmts checks b) c (eof_reply (c_cap c)).
Proof.
  intros Ac. unfold conn_set_multi_stmts. apply rp_sent; [exact Ac|right; destruct b; vm_compute; discriminate|]. intros c1 C1. rewrite <- C1. apply rp_recv; [apply not_eof|]. intros m d E Cd _. rewrite <- Cd.
  apply (rp_now (fun c => r <~ parse (read_set_option_response (c_cap c)) m ;; match r with SoEof _ => fun c => (Ok tt, set_cap c (if b then insert (c_cap c) MULTI_STATEMENTS
                            else remove (c_cap c) MULTI_STATEMENTS)) | SoErr e => ierr (error_of_err_packet e) end)).
  apply (rp_parse _ _ _ _ _ _ (accepts_set_option (c_cap d)) (pl_set_option _)).
  - intros [p|p] [S Lp].
    + apply (rp_iff _ _ (fun v ms => v = Done tt /\ ms = [])); [intros v ms; apply eof_ok; [exact S|]; eexists; exact Lp|]. exact (rp_ret tt d).
    + eapply rp_iff; [|apply (rp_error (c_cap d) p m); assumption]. intros v ms. apply eof_err, S.
  - intros v ms [(-> & m' & E1 & S & p & Lp)|H]; [injection E1 as <- ->; exists (SoEof p); split; assumption|].
    apply refusal_start in H. destruct H as [S (p & Lp)]. exists (SoErr p). split; assumption.
Qed.
Lemma ping_reports checks c : accepting (c_ws c) -> reports (conn_ping checks) c (ping_reply (c_cap c)).
Proof.
  intros Ac. unfold conn_ping. apply rp_sent; [exact Ac|right; vm_compute; discriminate|]. intros c1 C1. rewrite <- C1.
  apply rp_recv; [intros v (_ & m & p & E & _); discriminate E|]. intros m d E Cd _. rewrite <- Cd.
  apply (rp_now (fun c => _ <~ parse (read_ok_packet (c_cap c)) m ;; iret tt)).
  apply (rp_parse _ _ _ _ _ _ (accepts_ok (c_cap d)) (pl_ok _)).
  - intros p Lp. eapply rp_iff; [|apply rp_ret]. intros v ms. split.
    + intros [-> ->]. split; [reflexivity|]. eauto.
    + intros (-> & m' & q & E1 & _). injection E1 as <- ->. auto.
  - intros v ms (-> & m' & q & E1 & H). injection E1 as <- ->. eauto.
Qed.
Lemma statistics_reports checks c : accepting (c_ws c) -> reports (conn_statistics checks) c text_reply.
Proof.
  intros Ac. unfold conn_statistics. apply rp_sent; [exact Ac|right; vm_compute; discriminate|]. intros c1 C1.
  apply rp_recv; [intros v (m & E & _); discriminate E|]. intros m d E _ _. eapply rp_iff; [|apply rp_lift]. intros v ms. cbv beta. rewrite utf8_told. split.
  - intros [T ->]. exists m. destruct (utf8_valid m), v; cbn [told] in T; try discriminate. injection T as ->. auto.
  - intros (m' & E1 & U & ->). injection E1 as <- ->. rewrite U. split; reflexivity.
Qed.

(** ** Statements executed for their effect *)
Lemma exec_loop_reports (loop : nat -> io unit) : (forall f, loop (S f) = (msg <~ recv_msg ;;
    match msg with
    | [] => ipanic PIndex
    | b :: _ => if b2n b =? 255 then server_error msg
                else if b2n b =? 0 then (fun c => (_ <~ parse (read_ok_packet (c_cap c)) msg ;; iret tt) c) else loop f
    end)) -> forall f c, (length (arriving c) < f)%nat -> reports (loop f) c (exec_reply (c_cap c)).
Proof.
  intros Lp. induction f as [|f IH]; intros c Hf; [lia|]. rewrite Lp. apply rp_recv.
  - intros v (e & m & E & _). destruct e; discriminate E.
  - intros m d E Cd Sh. rewrite <- Cd.
    assert (K : forall v ms, ~ passed_over m -> exec_reply (c_cap d) v (m :: ms) <-> plain_reply (c_cap d) v (m :: ms)).
    { intros v ms NP. split.
      - intros (e & m' & E1 & Fo & H). destruct e as [|x e]; cbn [app] in E1; [injection E1 as -> ->; exact H|]. injection E1 as <- _. inversion Fo; subst. contradiction.
      - intros H. assert (ms = []) as -> by (destruct H as [(_ & m' & E1 & _)|(p & m' & E1 & _)]; congruence). exists [], m. auto. }
    destruct m as [|b m].
    + apply rp_none; [intros v; destruct v; discriminate|]. intros v ms H. apply K in H; [|intros (b & r & E1 & _); discriminate].
      destruct H as [(_ & m' & E1 & (r & C) & _)|H]; [congruence|]. apply refusal_start in H. destruct H as [(r & C) _]. discriminate.
    + destruct (starts_dec xff b m) as [F1 F2]. change (b2n xff) with 255 in *. destruct (b2n b =? 255) eqn:B.
      { specialize (F1 eq_refl). eapply rp_iff; [|apply rp_server, F1]. intros v ms. rewrite K; [apply plain_err, F1|].
        intros (b' & r & E1 & _ & Nb). destruct F1 as (r' & E2). congruence. }
      specialize (F2 eq_refl). clear F1. destruct (starts_dec x00 b m) as [G1 G2]. change (b2n x00) with 0 in *. destruct (b2n b =? 0) eqn:B0.
      { specialize (G1 eq_refl). assert (NP : ~ passed_over (b :: m)) by (intros (b' & r & E1 & Nb & _); destruct G1 as (r' & E2); congruence).
        apply (rp_now (fun c => _ <~ parse (read_ok_packet (c_cap c)) (b :: m) ;; iret tt)).
        apply (rp_parse _ _ _ _ _ _ (accepts_ok (c_cap d)) (pl_ok _)).
        - intros p Hp. eapply rp_iff; [|apply rp_ret]. intros v ms. rewrite K by exact NP. apply plain_ok. split; eauto.
        - intros v ms H. apply K in H; [|exact NP]. destruct H as [(_ & m' & E1 & _ & p & Hp)|H]; [injection E1 as <- ->; eauto|].
          apply refusal_start in H. tauto. }
      specialize (G2 eq_refl). eapply rp_iff; [|apply IH; lia]. intros v ms. split.
      * intros (e & m' & -> & Fo & H). exists ((b :: m) :: e), m'. split; [reflexivity|]. split; [|exact H]. constructor; [|exact Fo].
        exists b, m. split; [reflexivity|]. split; intros ->; [apply G2|apply F2]; eexists; reflexivity.
      * intros (e & m' & E1 & Fo & H). destruct e as [|x e]; cbn [app] in E1.
        { injection E1 as <- ->. destruct H as [(_ & m' & E1 & C & _)|H]; [injection E1 as <-; contradiction|]. apply refusal_start in H. tauto. }
        injection E1 as <- ->. inversion Fo; subst. exists e, m'. auto.
Qed.
Lemma query_exec_reports checks sql c : accepting (c_ws c) -> checks = false \/ packet_count (blen (write_query sql)) <= 255 ->
  reports (query_exec checks sql) c (exec_reply (c_cap c)).
Proof.
  intros Ac Ck. unfold query_exec. apply rp_sent; [exact Ac|exact Ck|]. intros d Cd. rewrite <- Cd. apply (rp_rounds query_exec_loop). intros f. apply exec_loop_reports. reflexivity.
Qed.
Lemma stmt_exec_reports checks ps params c : accepting (c_ws c) -> checks = false \/ packet_count (blen (write_stmt_execute (ps_stmt_id ps) params)) <= 255 ->
  reports (stmt_exec checks ps params) c (exec_reply (c_cap c)).
Proof.
  intros Ac Ck. unfold stmt_exec. apply rp_sent; [exact Ac|exact Ck|]. intros d Cd. rewrite <- Cd. apply (rp_rounds stmt_exec_loop). intros f. apply exec_loop_reports. reflexivity.
Qed.

(** ** Definitions of columns *)
Definition def_message (d : column_def) (m : bytes) : Prop := fields [coldef_layout false d; leftover] m.
Lemma def_one d d' m : def_message d m -> def_message d' m -> d = d'.
Proof. intros H H'. apply (accepts_coldef_message false) in H, H'. congruence. Qed.
Lemma col_defs_reports n : forall c, reports (recv_col_defs n) c (fun v ms => exists defs, v = Done defs /\ length defs = n /\ Forall2 def_message defs ms).
Proof.
  induction n as [|n IH]; intros c; cbn [recv_col_defs].
  - eapply rp_iff; [|apply rp_ret]. intros v ms. split.
    + intros [-> ->]. exists []. auto.
    + intros (defs & -> & Ln & F). destruct defs; [|discriminate Ln]. inversion F. auto.
  - apply rp_recv.
    + intros v (defs & _ & Ln & F). inversion F. subst. discriminate Ln.
    + intros m d E _ _. apply (rp_parse _ _ _ _ _ _ (accepts_coldef_message false) (pl_coldef _)).
      * intros a La. eapply rp_iff; [|apply rp_bind; [apply IH|intros l d1 _; apply rp_ret]]. intros v ms. cbv beta. split.
        { intros [(l & ms1 & ms2 & -> & (defs & [= <-] & Ln & F) & -> & ->)|H].
          - exists (a :: l). rewrite app_nil_r. cbn [length]. split; [reflexivity|]. split; [congruence|]. constructor; [exact La|exact F].
          - destruct v; [destruct H|]. destruct H as (defs & [=] & _). }
        { intros (defs & -> & Ln & F). inversion F as [|x y l l' F1 F2]; subst. cbn [length] in Ln. left. exists l, ms, []. rewrite app_nil_r. split; [reflexivity|].
          split; [exists l; split; [reflexivity|split; [congruence|exact F2]]|]. rewrite (def_one _ _ _ La F1). auto. }
      * intros v ms (defs & _ & _ & F). inversion F; subst. eauto.
Qed.
Lemma col_defs_cap n : forall c l d, recv_col_defs n c = (Ok l, d) -> c_cap d = c_cap c.
Proof.
  induction n as [|n IH]; intros c l d H; cbn [recv_col_defs] in H; [injection H as _ <-; reflexivity|].
  apply ibind_inv in H. destruct H as (m & c1 & E & H). apply ibind_inv in H. destruct H as (a & c2 & E2 & H). unfold parse, ilift in E2. injection E2 as _ <-.
  apply ibind_inv in H. destruct H as (l2 & c3 & E3 & H). injection H as _ <-. rewrite (IH _ _ _ E3). apply recv_next in E. tauto.
Qed.
Lemma defs_eof_cap c d : recv_defs_eof c = (Ok tt, d) -> c_cap d = c_cap c.
Proof.
  unfold recv_defs_eof. destruct (contains _ _); [intros [= <-]; reflexivity|]. intros H. apply ibind_inv in H. destruct H as (m & c1 & E & H).
  apply ibind_inv in H. destruct H as (a & c2 & E2 & H). unfold parse, ilift in E2. injection E2 as _ <-. injection H as <-. apply recv_next in E. tauto.
Qed.
Definition defs_over (cap : N) (ems : list bytes) : Prop := if cap_deprecate_eof cap then ems = [] else exists m, ems = [m] /\ end_of_data cap m.
Lemma defs_eof_reports c : reports recv_defs_eof c (fun v ms => v = Done tt /\ defs_over (c_cap c) ms).
Proof.
  apply (rp_now (fun c => if contains (c_cap c) DEPRECATE_EOF then iret tt else (msg <~ recv_msg ;; _ <~ parse (read_eof_packet (c_cap c)) msg ;; iret tt))).
  unfold defs_over. rewrite contains_deprecate. destruct (cap_deprecate_eof (c_cap c)).
  - apply rp_ret.
  - apply rp_recv; [intros v (_ & m & E & _); discriminate|]. intros m d E Cd _. apply (rp_parse _ _ _ _ _ _ (accepts_eof_message (c_cap c)) (pl_eof _)).
    + intros p Lp. eapply rp_iff; [|apply rp_ret]. intros v ms. split.
      * intros [-> ->]. split; [reflexivity|]. exists m. split; [reflexivity|]. exists p. exact Lp.
      * intros (-> & m' & E1 & _). injection E1 as <- ->. auto.
    + intros v ms (_ & m' & E1 & p & Lp). injection E1 as <- ->. eauto.
Qed.
Lemma defs_reports {B} (g : list column_def -> B) n c :
  reports (defs <~ recv_col_defs (N.to_nat n) ;; _ <~ recv_defs_eof ;; iret (g defs)) c (fun v ms => exists defs, v = Done (g defs) /\ definitions (c_cap c) n defs ms).
Proof.
  eapply rp_iff; [|apply rp_bind; [apply col_defs_reports|intros defs d E; apply rp_bind; [pose proof (defs_eof_reports d) as R; rewrite (col_defs_cap _ _ _ _ E) in R; exact R|intros u d1 _; apply rp_ret]]].
  intros v ms. cbv beta. split.
  - intros [(defs & ms1 & ms2 & -> & (defs' & Ed & Ln & F) & H1)|H1]; [injection Ed as <-|destruct v; [destruct H1|destruct H1 as (? & Ed & _); discriminate Ed]].
    destruct H1 as [(u & ms3 & ms4 & -> & (_ & Ov) & -> & ->)|H1]; [|destruct v; [destruct H1|destruct H1 as (Ed & _); discriminate Ed]].
    exists defs. split; [reflexivity|]. exists ms1, ms3. rewrite app_nil_r. split; [reflexivity|]. split; [lia|]. split; [exact F|exact Ov].
  - intros (defs & -> & dms & ems & -> & Ln & F & Ov). left. exists defs, dms, ems. split; [reflexivity|]. split; [exists defs; split; [reflexivity|split; [lia|exact F]]|].
    left. exists tt, ems, []. rewrite app_nil_r. auto.
Qed.

(** ** Queries *)
Lemma nonempty_count n : ~ column_count n [].
Proof. intros (_ & k & _ & H). apply fields_cons_inv in H. destruct H as (w & ws & E & H & _). symmetry in E. apply app_eq_nil in E. destruct E as [-> _]. inversion H. Qed.
Lemma told_ok {A} (a : A) v : told (Ok a) v <-> v = Done a.
Proof. destruct v; cbn [told]; split; congruence. Qed.
Lemma lei_u32 l n w : lei_layout l w -> lei_to_u32 l = Some n <-> exists k, lei_to_u64 l = Some k /\ n = k mod 2 ^ 32.
Proof.
  intros H. destruct l; cbn [lei_to_u32 lei_to_u64 lei_layout] in *.
  1,2: split; [discriminate|intros (k & [=] & _)].
  1: destruct H as [H _]. 2,3: apply fields_cons_inv in H; destruct H as (w1 & w2 & _ & _ & H); rewrite fields_one in H; apply is_le_bound in H.
  - split; [intros [= <-]; eexists; split; [reflexivity|]; symmetry; apply N.mod_small; lia|intros (k & [= <-] & ->); rewrite N.mod_small by lia; reflexivity].
  - split; [intros [= <-]; eexists; split; [reflexivity|]; symmetry; apply N.mod_small; lia|intros (k & [= <-] & ->); rewrite N.mod_small by lia; reflexivity].
  - split; [intros [= <-]; eexists; split; [reflexivity|]; symmetry; apply N.mod_small; lia|intros (k & [= <-] & ->); rewrite N.mod_small by lia; reflexivity].
  - unfold trunc. split; [intros [= <-]; eauto|intros (k & [= <-] & ->); reflexivity].
Qed.
Lemma told_err {A} cap p m (v : verdict A) : starts_with xff m -> err_layout cap true p m -> told (Err (error_of_err_packet p)) v <-> refusal cap v [m].
Proof.
  intros S Lp. unfold error_of_err_packet. rewrite !utf8_told. split.
  - intros T. exists p, m. destruct v; [discriminate T|]. cbn [told] in T.
    destruct (utf8_valid (er_state p)); [|discriminate]. destruct (utf8_valid (er_message p)); [|discriminate]. injection T as <- <- <- <-. auto 10.
  - intros (q & m' & E & _ & Lq & U1 & U2 & ->). injection E as <-. rewrite (err_one _ _ _ _ Lp Lq), U1, U2. reflexivity.
Qed.
Lemma count_told cap m v : told (parse_col_cnt_packet cap m) v <->
  (v = Done 0 /\ completion cap m) \/ (exists n, v = Done n /\ ~ starts_with xff m /\ column_count n m) \/ refusal cap v [m].
Proof.
  destruct m as [|b m].
  { cbn [parse_col_cnt_packet]. split; [destruct v; discriminate|]. intros [(_ & (r & E) & _)|[(n & _ & _ & H)|H]]; [discriminate E|destruct (nonempty_count _ H)|].
    apply refusal_start in H. destruct H as [(r & E) _]. discriminate E. }
  unfold parse_col_cnt_packet. destruct (starts_dec xff b m) as [F1 F2]. change (b2n xff) with 255 in *. destruct (b2n b =? 255).
  { specialize (F1 eq_refl). destruct (fst (read_err_packet cap true (b :: m))) as [p|e| |] eqn:E; cbn [rbind].
    - rewrite (told_err cap p (b :: m)); [|exact F1|apply (accepts_err cap true), E]. split; [auto|]. intros [(_ & C & _)|[(n & _ & N & _)|H]]; [|contradiction|exact H].
      pose proof (starts_same _ _ _ F1 C). discriminate.
    - split; [intros T; apply (pl_err cap true) in E; destruct v; cbn [told] in T; [discriminate|injection T as ->; destruct E]|].
      intros [(_ & C & _)|[(n & _ & N & _)|H]]; [pose proof (starts_same _ _ _ F1 C); discriminate|contradiction|].
      apply refusal_start in H. destruct H as [_ (p & H)]. apply (accepts_err cap true) in H. congruence.
    - split; [destruct v; discriminate|].
      intros [(_ & C & _)|[(n & _ & N & _)|H]]; [pose proof (starts_same _ _ _ F1 C); discriminate|contradiction|].
      apply refusal_start in H. destruct H as [_ (p' & H)]. apply (accepts_err cap true) in H. congruence.
    - split; [destruct v; discriminate|].
      intros [(_ & C & _)|[(n & _ & N & _)|H]]; [pose proof (starts_same _ _ _ F1 C); discriminate|contradiction|].
      apply refusal_start in H. destruct H as [_ (p' & H)]. apply (accepts_err cap true) in H. congruence. }
  specialize (F2 eq_refl). clear F1. destruct (starts_dec x00 b m) as [G1 G2]. change (b2n x00) with 0 in *. destruct (b2n b =? 0).
  { specialize (G1 eq_refl). assert (R : ((v = Done 0 /\ completion cap (b :: m)) \/ (exists n, v = Done n /\ ~ starts_with xff (b :: m) /\ column_count n (b :: m)) \/ refusal cap v [b :: m]) <->
        (v = Done 0 /\ exists p, ok_layout cap p (b :: m))).
    { split.
      - intros [(-> & _ & H)|[(n & _ & _ & N & _)|H]]; [auto|contradiction|]. apply refusal_start in H. tauto.
      - intros [-> H]. left. split; [reflexivity|]. split; assumption. }
    rewrite R. clear R. destruct (fst (read_ok_packet cap (b :: m))) as [p|e| |] eqn:E; cbn [rbind].
    - rewrite told_ok. split; [intros ->; split; [reflexivity|]; exists p; apply accepts_ok, E|tauto].
    - split; [intros T; apply (pl_ok cap) in E; destruct v; cbn [told] in T; [discriminate|injection T as ->; destruct E]|]. intros (_ & p & H). apply accepts_ok in H. congruence.
    - split; [destruct v; discriminate|]. intros (_ & q & H). apply accepts_ok in H. congruence.
    - split; [destruct v; discriminate|]. intros (_ & q & H). apply accepts_ok in H. congruence. }
  specialize (G2 eq_refl).
  assert (R : ((v = Done 0 /\ completion cap (b :: m)) \/ (exists n, v = Done n /\ ~ starts_with xff (b :: m) /\ column_count n (b :: m)) \/ refusal cap v [b :: m]) <->
        (exists n, v = Done n /\ column_count n (b :: m))).
  { split.
    - intros [(-> & C & H)|[(n & -> & _ & H)|H]]; [contradiction|eauto|]. apply refusal_start in H. tauto.
    - intros (n & -> & H). right. left. eauto. }
  rewrite R. clear R.
  assert (Q : forall n, column_count n (b :: m) <-> exists l, fst (read_len_enc_int (b :: m)) = Ok l /\ lei_to_u32 l = Some n).
  { intros n. split.
    - intros (_ & k & -> & H). apply fields_cons_inv in H. destruct H as (w & ws & E & H & _). apply any_lei in H. destruct H as (l & Hl & H64).
      exists l. split; [|apply (lei_u32 l _ w Hl); eauto]. assert (X : read_len_enc_int (b :: m) = (Ok l, ws)) by (apply te_lei; eauto). rewrite X. reflexivity.
    - intros (l & H & H32). destruct (read_len_enc_int (b :: m)) as [r ws] eqn:X. cbn [fst] in H. subst r. apply te_lei in X. destruct X as (w & E & Hl).
      apply (lei_u32 l _ w Hl) in H32. destruct H32 as (k & H64 & ->). split; [exact G2|]. exists k. split; [reflexivity|]. rewrite E. apply fields_cons_inv.
      exists w, ws. split; [reflexivity|]. split; [apply any_lei; eauto|]. apply fields_one. exact I. }
  destruct (read_len_enc_int (b :: m)) as [r ws] eqn:X. cbn [fst] in Q. destruct r as [l|e| |]; cbn [rbind].
  - destruct (lei_to_u32 l) as [k|] eqn:K.
    + rewrite told_ok. split; [intros ->; exists k; split; [reflexivity|]; apply Q; eauto|]. intros (n & -> & H). apply Q in H. destruct H as (l' & [= <-] & H). congruence.
    + split; [destruct ws; destruct v; discriminate|]. intros (n & -> & H). apply Q in H. destruct H as (l' & [= <-] & H). congruence.
  - split; [|intros (n & -> & H); apply Q in H; destruct H as (l' & [=] & _)]. intros T. pose proof (pl_lei (b :: m) e) as P. rewrite X in P. specialize (P eq_refl).
    destruct v; cbn [told] in T; [discriminate|injection T as ->; destruct P].
  - split; [destruct v; discriminate|intros (n & -> & H); apply Q in H; destruct H as (l' & [=] & _)].
  - split; [destruct v; discriminate|intros (n & -> & H); apply Q in H; destruct H as (l' & [=] & _)].
Qed.
Lemma count_start n m : column_count n m -> ~ starts_with xff m.
Proof.
  intros (_ & k & _ & H) (r & ->). apply fields_cons_inv in H. destruct H as (w & ws & E & H & _).
  inversion H as [k' b Hk Hb|? s Hs|? s Hs|? s Hs]; subst w; cbn [app] in E; injection E as E _; subst; discriminate.
Qed.
Lemma count_one n n' m : column_count n m -> column_count n' m -> n = n'.
Proof.
  intros H H'. pose proof (count_start _ _ H) as N. assert (T : told (parse_col_cnt_packet 0 m) (Done n)) by (apply count_told; eauto 6).
  assert (T' : told (parse_col_cnt_packet 0 m) (Done n')) by (apply count_told; eauto 6). cbn [told] in *. congruence.
Qed.
Lemma not_query cap id v : ~ query_reply cap id v [].
Proof. intros [(_ & m & E & _)|[(n & defs & m & dms & _ & E & _)|H]]; [discriminate E|discriminate E|exact (no_refusal _ _ H)]. Qed.
Lemma result_set_reports id c : reports (new_result_set id) c (query_reply (c_cap c) id).
Proof.
  unfold new_result_set. apply (rp_now (fun c => msg <~ recv_msg ;; col_cnt <~ ilift (parse_col_cnt_packet (c_cap c) msg) ;;
   if col_cnt =? 0 then iret (rs_empty id) else col_defs <~ recv_col_defs (N.to_nat col_cnt) ;; _ <~ recv_defs_eof ;; iret (rs_new col_defs id))).
  apply rp_recv; [apply not_query|]. intros m d E Cd _. rewrite <- Cd.
  eapply rp_iff; [|eapply (rp_bind _ _ _ _ (fun n v ms => if n =? 0 then v = Done (rs_empty id) /\ ms = [] else exists defs, v = Done (rs_new defs id) /\ definitions (c_cap d) n defs ms)); [apply rp_lift|]].
  - intros v ms. cbv beta. split.
    + intros [(n & ms1 & ms2 & -> & (T & ->) & H)|H].
      * cbn [app]. apply count_told in T. destruct T as [([= ->] & C)|[(n' & [= <-] & N & C)|(p & m' & _ & _ & _ & _ & _ & [=])]].
        { destruct H as (-> & ->). left. split; [reflexivity|]. eauto. }
        destruct (N.eqb_spec n 0) as [->|N0]; [destruct H as (-> & ->); left; split; [reflexivity|]; eauto|].
        destruct H as (defs & -> & D). right. left. exists n, defs, m, ms2. auto.
      * destruct v as [|a b s t]; [destruct H|]. destruct H as (T & ->). apply count_told in T. destruct T as [([=] & _)|[(n' & [=] & _)|H]]. right. right.
        destruct H as (p & m' & E1 & S & Lp & U & U' & Ev). injection Ev as -> -> -> ->. exists p, m'. auto 10.
    + intros [(-> & m' & E1 & C)|[(n & defs & m' & dms & -> & E1 & N0 & C & D)|H]].
      * injection E1 as <- ->. left. exists 0, [], []. split; [reflexivity|]. split; [|split; reflexivity]. split; [|reflexivity]. apply count_told. destruct C as [C|C]; [auto|].
        right. left. exists 0. split; [reflexivity|]. split; [exact (count_start _ _ C)|exact C].
      * injection E1 as <- ->. left. exists n, [], dms. split; [reflexivity|]. split; [split; [apply count_told|reflexivity]|].
        { right. left. exists n. split; [reflexivity|]. split; [exact (count_start _ _ C)|exact C]. }
        destruct (N.eqb_spec n 0); [contradiction|]. exists defs. auto.
      * destruct H as (p & m' & E1 & S & Lp & U & U' & ->). right. injection E1 as <- ->. split; [|reflexivity]. apply count_told. right. right. exists p, m. auto 10.
  - intros n d1 E1. unfold ilift in E1. injection E1 as _ <-. destruct (n =? 0); [apply rp_ret|]. apply (defs_reports (fun defs => rs_new defs id)).
Qed.
Lemma query_qry_reports checks sql c : accepting (c_ws c) -> checks = false \/ packet_count (blen (write_query sql)) <= 255 ->
  reports (query_qry checks sql) c (query_reply (c_cap c) None).
Proof. intros Ac Ck. unfold query_qry. apply rp_sent; [exact Ac|exact Ck|]. intros d Cd. rewrite <- Cd. apply result_set_reports. Qed.
Lemma stmt_qry_reports checks ps params c : accepting (c_ws c) -> checks = false \/ packet_count (blen (write_stmt_execute (ps_stmt_id ps) params)) <= 255 ->
  reports (stmt_qry checks ps params) c (query_reply (c_cap c) (Some (ps_stmt_id ps))).
Proof. intros Ac Ck. unfold stmt_qry. apply rp_sent; [exact Ac|exact Ck|]. intros d Cd. rewrite <- Cd. apply result_set_reports. Qed.
Lemma process_info_reports checks c : accepting (c_ws c) -> reports (conn_process_info checks) c (query_reply (c_cap c) None).
Proof. intros Ac. unfold conn_process_info. apply rp_sent; [exact Ac|right; vm_compute; discriminate|]. intros d Cd. rewrite <- Cd. apply result_set_reports. Qed.

(** ** Preparing a statement *)
Lemma block_reports n c : reports (recv_defs_block n) c (fun v ms => exists defs, v = Done defs /\ definitions_if_any (c_cap c) n defs ms).
Proof.
  unfold recv_defs_block, definitions_if_any. destruct (n =? 0); [|apply (defs_reports (fun defs => defs))].
  eapply rp_iff; [|apply rp_ret]. intros v ms. split; [intros [-> ->]; eauto|]. intros (defs & -> & -> & ->). auto.
Qed.
Lemma block_cap n c l d : recv_defs_block n c = (Ok l, d) -> c_cap d = c_cap c.
Proof.
  unfold recv_defs_block. destruct (n =? 0); [intros [= _ <-]; reflexivity|]. intros H. apply ibind_inv in H. destruct H as (l1 & c1 & E1 & H).
  apply ibind_inv in H. destruct H as ([] & c2 & E2 & H). injection H as _ <-. rewrite (defs_eof_cap _ _ E2). exact (col_defs_cap _ _ _ _ E1).
Qed.
Lemma prepare_one p q m : fields [prepare_ok_layout p; leftover] m -> fields [prepare_ok_layout q; leftover] m -> p = q.
Proof. intros H H'. apply (tm_of _ _ accepts_prepare_ok) in H, H'. congruence. Qed.
Lemma prepare_start p m : fields [prepare_ok_layout p; leftover] m -> starts_with x00 m.
Proof.
  intros H. apply fields_cons_inv in H. destruct H as (w & ws & -> & (_ & H) & _). apply fields_cons_inv in H. destruct H as (w1 & w2 & -> & -> & _). eexists. reflexivity.
Qed.
Lemma prepare_reports checks sql c : accepting (c_ws c) -> checks = false \/ packet_count (blen (write_stmt_prepare sql)) <= 255 ->
  reports (stmt_prepare checks sql) c (prepare_reply (c_cap c)).
Proof.
  intros Ac Ck. unfold stmt_prepare. apply rp_sent; [exact Ac|exact Ck|]. intros c1 C1. rewrite <- C1. apply rp_recv.
  { intros v [(p & pd & cd & m & pms & cms & _ & E & _)|H]; [discriminate E|exact (no_refusal _ _ H)]. }
  intros m d E Cd _. rewrite <- Cd. destruct m as [|b m].
  { apply rp_none; [intros v; destruct v; discriminate|]. intros v ms [(p & pd & cd & m & pms & cms & _ & E1 & Lp & _)|H].
    - injection E1 as <- _. apply prepare_start in Lp. destruct Lp as (r & Lp). discriminate.
    - apply refusal_start in H. destruct H as [(r & H) _]. discriminate. }
  destruct (starts_dec xff b m) as [F1 F2]. change (b2n xff) with 255 in *. destruct (b2n b =? 255).
  { specialize (F1 eq_refl). eapply rp_iff; [|apply rp_server, F1]. intros v ms. split; [intros H; right; exact H|].
    intros [(p & pd & cd & m' & pms & cms & _ & E1 & Lp & _)|H]; [|exact H]. injection E1 as <- _. apply prepare_start in Lp. pose proof (starts_same _ _ _ F1 Lp). discriminate. }
  specialize (F2 eq_refl). set (msg := b :: m) in *. apply (rp_parse _ _ _ _ _ _ (tm_of _ _ accepts_prepare_ok) pl_prepare).
  - intros p Lp. eapply rp_iff; [|eapply (rp_bind _ _ _ _ (fun pd v ms => exists cd, v = Done (mk_ps (spo_stmt_id p) cd pd (spo_n_warnings p)) /\ definitions_if_any (c_cap d) (spo_n_cols p) cd ms)); [apply block_reports|]].
    + intros v ms. cbv beta. split.
      * intros [(pd & ms1 & ms2 & -> & (pd' & Ed & D1) & cd & -> & D2)|H]; [injection Ed as <-|destruct v; [destruct H|destruct H as (? & Ed & _); discriminate Ed]].
        left. exists p, pd, cd, msg, ms1, ms2. auto 10.
      * intros [(q & pd & cd & m' & pms & cms & -> & E1 & Lq & D1 & D2)|H]; [|apply refusal_start in H; destruct H as [H _]; contradiction].
        injection E1 as <- ->. pose proof (prepare_one _ _ _ Lp Lq) as <-. left. exists pd, pms, cms. split; [reflexivity|]. split; [eauto|eauto].
    + intros pd d1 E1. eapply rp_iff; [|apply rp_bind; [pose proof (block_reports (spo_n_cols p) d1) as R; rewrite (block_cap _ _ _ _ E1) in R; exact R|intros cd d2 _; apply rp_ret]].
      intros v ms. cbv beta. split.
      * intros [(cd & ms1 & ms2 & -> & (cd' & Ed & D1) & -> & ->)|H]; [injection Ed as <-|destruct v; [destruct H|destruct H as (? & Ed & _); discriminate Ed]].
        exists cd. rewrite app_nil_r. auto.
      * intros (cd & -> & D). left. exists cd, ms, []. rewrite app_nil_r. eauto 6.
  - intros v ms [(q & pd & cd & m' & pms & cms & -> & E1 & Lq & _)|H]; [injection E1 as <- _; eauto|]. apply refusal_start in H. destruct H as [H _]. contradiction.
Qed.

(** ** The fields of a table *)
Definition field_message (d : column_def) (m : bytes) : Prop := ~ starts_with xff m /\ ~ starts_with xfe m /\ fields [coldef_layout true d; leftover] m.
Lemma field_one d d' m : field_message d m -> field_message d' m -> d = d'.
Proof. intros (_ & _ & H) (_ & _ & H'). apply (accepts_coldef_message true) in H, H'. congruence. Qed.
Definition fields_after (cap : N) (acc : list column_def) (v : verdict (list column_def)) (ms : list bytes) : Prop :=
  exists defs dms m, ms = dms ++ [m] /\ Forall2 field_message defs dms /\ ((v = Done (acc ++ defs) /\ starts_with xfe m /\ end_of_data cap m) \/ refusal cap v [m]).
Lemma field_loop_reports f : forall acc c, (length (arriving c) < f)%nat -> reports (field_list_loop f acc) c (fields_after (c_cap c) acc).
Proof.
  induction f as [|f IH]; intros acc c Hf; [lia|]. cbn [field_list_loop]. apply rp_recv; [intros v (defs & dms & m & E & _); destruct dms; discriminate E|].
  intros m d E Cd Sh. rewrite <- Cd.
  apply (rp_now (fun c => r <~ parse (read_field_list_response (c_cap c) true) m ;;
         match r with FlErr err => ierr (error_of_err_packet err) | FlEof _ => iret acc | FlColDef col_def => field_list_loop f (acc ++ [col_def]) end)).
  apply (rp_parse _ _ _ _ _ _ (accepts_field_list (c_cap d) true) (pl_field_list _)).
  - intros [cd|p|p] La.
    + eapply rp_iff; [|apply IH; lia]. intros v ms. split.
      * intros (defs & dms & m' & -> & F & H). exists (cd :: defs), (m :: dms), m'. split; [reflexivity|]. split; [constructor; [exact La|exact F]|].
        rewrite <- app_assoc in H. exact H.
      * intros (defs & dms & m' & E1 & F & H). destruct dms as [|x dms]; cbn [app] in E1.
        { injection E1 as <- _. destruct La as (N1 & N2 & _). destruct H as [(_ & H & _)|H]; [contradiction|]. apply refusal_start in H. tauto. }
        injection E1 as <- ->. inversion F as [|d0 ? l ? F1 F2]; subst. pose proof (field_one _ _ _ La F1) as <-. exists l, dms, m'. split; [reflexivity|]. split; [exact F2|].
        rewrite <- app_assoc. exact H.
    + destruct La as [S Lp]. eapply rp_iff; [|apply (rp_error (c_cap d) p m); assumption]. intros v ms. split.
      * intros H. assert (ms = []) as -> by (destruct H as (q & m' & E1 & _); congruence). exists [], [], m. auto.
      * intros (defs & dms & m' & E1 & F & H). destruct dms as [|x dms]; cbn [app] in E1.
        { injection E1 as <- ->. destruct H as [(_ & H & _)|H]; [pose proof (starts_same _ _ _ S H); discriminate|exact H]. }
        injection E1 as <- _. inversion F as [|d0 ? l ? F1 F2]; subst. destruct F1 as (N1 & _). contradiction.
    + destruct La as [S Lp]. eapply rp_iff; [|apply rp_ret]. intros v ms. split.
      * intros [-> ->]. exists [], [], m. split; [reflexivity|]. split; [constructor|]. left. rewrite app_nil_r. split; [reflexivity|]. split; [exact S|]. exists p. exact Lp.
      * intros (defs & dms & m' & E1 & F & H). destruct dms as [|x dms]; cbn [app] in E1.
        { injection E1 as <- ->. inversion F; subst. rewrite app_nil_r in H. destruct H as [(-> & _)|H]; [auto|]. apply refusal_start in H. destruct H as [H _]. pose proof (starts_same _ _ _ S H). discriminate. }
        injection E1 as <- _. inversion F as [|d0 ? l ? F1 F2]; subst. destruct F1 as (_ & N1 & _). contradiction.
  - intros v ms (defs & dms & m' & E1 & F & H). destruct dms as [|x dms]; cbn [app] in E1.
    { injection E1 as <- ->. destruct H as [(_ & S & p & Lp)|H]; [exists (FlEof p); split; assumption|]. apply refusal_start in H. destruct H as [S (p & Lp)]. exists (FlErr p). split; assumption. }
    injection E1 as <- _. inversion F as [|d0 ? l ? F1 F2]; subst. exists (FlColDef d0). exact F1.
Qed.
Lemma field_list_reports checks table wildcard c : accepting (c_ws c) -> checks = false \/ packet_count (blen (write_field_list table wildcard)) <= 255 ->
  reports (conn_field_list checks table wildcard) c (fields_reply (c_cap c)).
Proof.
  intros Ac Ck. unfold conn_field_list. apply rp_sent; [exact Ac|exact Ck|]. intros d Cd. rewrite <- Cd. apply (rp_rounds (fun f => field_list_loop f [])).
  intros f Hf. exact (field_loop_reports f [] d Hf).
Qed.

(** ** Rows *)
Lemma dl_iff {A} (m : io A) c L L' : (forall v ms, L v ms <-> L' v ms) -> delivers m c L -> delivers m c L'.
Proof.
  intros I R v rest. rewrite (R v rest). split; intros (ms & w & W & E & H); exists ms, w; repeat split; auto; apply I; exact H.
Qed.
Lemma dl_at {A} (m m' : io A) c c' L : m c = m' c' -> arriving c = arriving c' -> delivers m' c' L -> delivers m c L.
Proof. intros E A' H v rest. rewrite E, A'. apply H. Qed.
Lemma dl_ret {A} (a : A) c : delivers (iret a) c (fun v ms => v = a /\ ms = []).
Proof.
  intros v rest. cbn [iret fst snd]. split.
  - intros [[= ->] <-]. exists [], []. repeat split; auto using msw_nil.
  - intros (ms & w & W & E & -> & ->). inversion W; subst. split; [reflexivity|exact E].
Qed.
Lemma dl_none {A} (m : io A) c L : (forall v, fst (m c) <> Ok v) -> (forall v ms, ~ L v ms) -> delivers m c L.
Proof. intros H N v rest. split; [intros [T _]; destruct (H _ T)|]. intros (ms & w & _ & _ & X). destruct (N _ _ X). Qed.
Lemma dl_recv {A} (f : bytes -> io A) c L : (forall v, ~ L v []) ->
  (forall m d, recv_msg c = (Ok m, d) -> c_cap d = c_cap c -> (length (arriving d) < length (arriving c))%nat -> delivers (f m) d (fun v ms => L v (m :: ms))) ->
  delivers (ibind recv_msg f) c L.
Proof.
  intros N H v rest. destruct (recv_msg_total c) as [(seqs & m & w & r & d & E & W & D & D1)|(d & E)].
  - pose proof (recv_next _ _ _ E) as (_ & _ & Cd & Sh). rewrite (ibind_ok _ _ _ _ _ E). rewrite (H m d E Cd Sh v rest). clear H. split.
    + intros (ms & w' & W' & E' & X). exists (m :: ms), (w ++ w'). repeat split; [econstructor; eauto| |exact X].
      unfold arriving in *. rewrite D, <- D1, E', app_assoc. reflexivity.
    + intros (ms & w' & W' & E' & X). destruct ms as [|m' ms]; [destruct (N _ X)|]. inversion W' as [|? w1 ? ws ? M1 M2]; subst. unfold arriving in *.
      rewrite <- app_assoc in E'. destruct (recv_msg_spec _ _ _ c _ M1 E') as (d' & E2 & D2 & _). rewrite E in E2. injection E2 as <- <-.
      exists ms, ws. repeat split; [exact M2|exact D2|exact X].
  - rewrite (ibind_err _ _ _ _ _ E). split; [intros [T _]; discriminate T|].
    intros (ms & w' & W' & E' & X). destruct ms as [|m' ms]; [destruct (N _ X)|]. inversion W' as [|? w1 ? ws ? M1 M2]; subst. unfold arriving in *.
    rewrite <- app_assoc in E'. destruct (recv_msg_spec _ _ _ c _ M1 E') as (d' & E2 & _). congruence.
Qed.

Lemma dl_rounds {A} (loop : nat -> io A) c L : (forall f, (length (arriving c) < f)%nat -> delivers (loop f) c L) -> delivers (fun c => loop (S (sched_len (c_rd c))) c) c L.
Proof. intros H. apply (H (S (sched_len (c_rd c)))). pose proof (delivered_sched (fun x => x) (fun x => x) (c_rd c)). unfold arriving. lia. Qed.

Section Rows.
  Context {Q : Type} (read_row : result_set -> parser (list Q)) (rs : result_set) (layout : list Q -> bytes -> Prop).
  Hypothesis takes : takes_message (read_row rs) (fun row m => fields [layout row; leftover] m).
  Hypothesis open : rs_completed rs = false.

  Lemma ends_dec b m : ((b2n b =? 254) && (blen (b :: m) <=? 16777215) = true -> ends_rows (b :: m)) /\
    ((b2n b =? 254) && (blen (b :: m) <=? 16777215) = false -> ~ ends_rows (b :: m)).
  Proof.
    destruct (starts_dec xfe b m) as [S1 S2]. change (b2n xfe) with 254 in *. unfold ends_rows, blen. split.
    - intros H. apply andb_true_iff in H. destruct H as [H1 H2]. apply N.leb_le in H2. auto.
    - intros H. apply andb_false_iff in H. intros [S L]. destruct H as [H|H]; [exact (S2 H S)|]. apply N.leb_gt in H. lia.
  Qed.
  (** what a message means *)
  Lemma row_told cap m o : fst (next_row_msg read_row cap rs m) = Ok o <-> match o with Some r => says_row layout r m | None => last_row_message cap m end.
  Proof.
    destruct m as [|b m].
    { cbn [next_row_msg fst]. split; [discriminate|]. destruct o; [intros [N _]; contradiction|]. intros [[(r & E) _] _]. discriminate E. }
    unfold next_row_msg. destruct (ends_dec b m) as [E1 E2]. destruct ((b2n b =? 254) && (blen (b :: m) <=? 16777215)).
    - specialize (E1 eq_refl). destruct o as [row|].
      { split; [|intros (_ & N & _); contradiction]. destruct (contains cap DEPRECATE_EOF).
        - destruct (fst (read_ok_packet cap (b :: m))); discriminate.
        - destruct (fst (read_eof_packet cap (b :: m))); discriminate. }
      unfold last_row_message. rewrite contains_deprecate. destruct (cap_deprecate_eof cap).
      + destruct (fst (read_ok_packet cap (b :: m))) as [p|e| |] eqn:E; cbn [rmap rbind fst].
        * split; [intros _; split; [exact E1|]; exists p; apply accepts_ok, E|reflexivity].
        * split; [discriminate|]. intros (_ & p & H). apply accepts_ok in H. congruence.
        * split; [discriminate|]. intros (_ & q & H). apply accepts_ok in H. congruence.
        * split; [discriminate|]. intros (_ & q & H). apply accepts_ok in H. congruence.
      + destruct (fst (read_eof_packet cap (b :: m))) as [p|e| |] eqn:E; cbn [rmap rbind fst].
        * split; [intros _; split; [exact E1|]; exists p; apply accepts_eof_message, E|reflexivity].
        * split; [discriminate|]. intros (_ & p & H). apply accepts_eof_message in H. congruence.
        * split; [discriminate|]. intros (_ & q & H). apply accepts_eof_message in H. congruence.
        * split; [discriminate|]. intros (_ & q & H). apply accepts_eof_message in H. congruence.
    - specialize (E2 eq_refl). cbn [fst]. destruct o as [row|].
      + transitivity (fst (read_row rs (b :: m)) = Ok row); [|unfold says_row; rewrite <- (takes (b :: m) row); split; [intros H; split; [discriminate|auto]|tauto]].
        destruct (fst (read_row rs (b :: m))); cbn [rmap rbind]; split; congruence.
      + split; [|intros (N & _); contradiction]. destruct (fst (read_row rs (b :: m))); discriminate.
  Qed.
  Lemma row_kept cap m row : fst (next_row_msg read_row cap rs m) = Ok (Some row) -> snd (next_row_msg read_row cap rs m) = rs.
  Proof.
    unfold next_row_msg. destruct m as [|b m]; [reflexivity|]. destruct (_ && _); [|reflexivity]. destruct (contains cap DEPRECATE_EOF).
    - destruct (fst (read_ok_packet cap (b :: m))); discriminate.
    - destruct (fst (read_eof_packet cap (b :: m))); discriminate.
  Qed.
  Lemma next_row_delivers c : delivers (on_rs (next_row read_row) rs) c (next_row_reply (c_cap c) layout).
  Proof.
    apply (dl_at _ (ibind recv_msg (fun m => ilift (fst (next_row_msg read_row (c_cap c) rs m)))) c c); [|reflexivity|].
    { unfold on_rs, next_row, ibind, ilift. rewrite open. destruct (recv_msg c) as [[m| | |] d]; try reflexivity. destruct (next_row_msg read_row (c_cap c) rs m); reflexivity. }
    apply dl_recv; [intros v (m & E & _); discriminate E|]. intros m d E Cd _.
    destruct (fst (next_row_msg read_row (c_cap c) rs m)) as [o|e| |] eqn:R.
    - eapply dl_iff; [|apply (dl_ret o)]. intros v ms. split.
      + intros [-> ->]. exists m. split; [reflexivity|]. apply row_told, R.
      + intros (m' & E1 & H). injection E1 as <- ->. apply row_told in H. split; [congruence|reflexivity].
    - apply dl_none; [discriminate|]. intros v ms (m' & E1 & H). injection E1 as <- _. apply row_told in H. congruence.
    - apply dl_none; [discriminate|]. intros v ms (m' & E1 & H). injection E1 as <- _. apply row_told in H. congruence.
    - apply dl_none; [discriminate|]. intros v ms (m' & E1 & H). injection E1 as <- _. apply row_told in H. congruence.
  Qed.
  (** the loop over the rows with any accumulator *)
  Lemma while_delivers {B} (step : B -> list Q -> B) f : forall acc c, (length (arriving c) < f)%nat ->
    delivers (on_rs (while_rows f (next_row read_row) step acc) rs) c (fun v ms => exists rows, v = fold_left step rows acc /\ rows_reply (c_cap c) layout rows ms).
  Proof.
    induction f as [|f IH]; intros acc c Hf; [lia|].
    apply (dl_at _ (ibind recv_msg (fun m d => match fst (next_row_msg read_row (c_cap c) rs m) with
        | Ok (Some row) => on_rs (while_rows f (next_row read_row) step (step acc row)) rs d
        | Ok None => (Ok acc, d) | Err e => (Err e, d) | Panic p => (Panic p, d) | Loop => (Loop, d) end)) c c); [|reflexivity|].
    { unfold on_rs, ibind. cbn [while_rows]. unfold next_row. rewrite open. destruct (recv_msg c) as [[m| | |] d]; try reflexivity.
      pose proof (row_kept (c_cap c) m) as K. destruct (next_row_msg read_row (c_cap c) rs m) as [r rs'] eqn:R. cbn [fst snd] in *. destruct r as [[row|]| | |]; try reflexivity.
      rewrite (K row eq_refl). reflexivity. }
    apply dl_recv; [intros v (rows & _ & rms & m & E & _); destruct rms; discriminate E|]. intros m d E Cd Sh.
    assert (Nn : forall v ms, (exists rows, v = fold_left step rows acc /\ rows_reply (c_cap c) layout rows (m :: ms)) -> exists o, fst (next_row_msg read_row (c_cap c) rs m) = Ok o).
    { intros v ms (rows & _ & rms & m' & E1 & F & Ls). destruct rms as [|x rms]; cbn [app] in E1.
      - injection E1 as <- ->. exists None. apply row_told. exact Ls.
      - injection E1 as <- ->. inversion F as [|r0 ? l ? F1 F2]; subst. exists (Some r0). apply row_told. exact F1. }
    destruct (fst (next_row_msg read_row (c_cap c) rs m)) as [[row|]|e| |] eqn:R.
    - pose proof (proj1 (row_told _ _ _) R) as Rm. cbv beta iota in Rm. eapply dl_at; [reflexivity|reflexivity|]. eapply dl_iff; [|apply IH; lia]. intros v ms. cbv beta. rewrite Cd. split.
      + intros (rows & -> & rms & m' & -> & F & Ls). exists (row :: rows). split; [reflexivity|]. exists (m :: rms), m'. split; [reflexivity|]. split; [constructor; assumption|exact Ls].
      + intros (rows & -> & rms & m' & E1 & F & Ls). destruct rms as [|x rms]; cbn [app] in E1.
        { injection E1 as <- ->. destruct Rm as (_ & N & _). destruct Ls as [Ls _]. contradiction. }
        injection E1 as <- ->. inversion F as [|r0 ? l ? F1 F2]; subst. pose proof (proj2 (row_told (c_cap c) m (Some r0)) F1) as R'. rewrite R in R'. injection R' as <-.
        exists l. split; [reflexivity|]. exists rms, m'. auto.
    - pose proof (proj1 (row_told _ _ _) R) as Rm. cbv beta iota in Rm. apply (dl_at _ (iret acc) d d); [reflexivity|reflexivity|]. eapply dl_iff; [|apply dl_ret]. intros v ms. cbv beta. split.
      + intros [-> ->]. exists []. split; [reflexivity|]. exists [], m. auto.
      + intros (rows & -> & rms & m' & E1 & F & Ls). destruct rms as [|x rms]; cbn [app] in E1.
        { injection E1 as <- ->. inversion F; subst. auto. }
        injection E1 as <- ->. inversion F as [|r0 ? l ? F1 F2]; subst. destruct F1 as (_ & N & _). destruct Rm as [Rm _]. contradiction.
    - apply dl_none; [discriminate|]. intros v ms H. destruct (Nn _ _ H) as (o & X). discriminate X.
    - apply dl_none; [discriminate|]. intros v ms H. destruct (Nn _ _ H) as (o & X). discriminate X.
    - apply dl_none; [discriminate|]. intros v ms H. destruct (Nn _ _ H) as (o & X). discriminate X.
  Qed.
  Lemma all_delivers c : delivers (on_rs (rs_all (next_row read_row)) rs) c (rows_reply (c_cap c) layout).
  Proof.
    apply (dl_rounds (fun f => on_rs (while_rows f (next_row read_row) (fun rows row => rows ++ [row]) []) rs)). intros f Hf.
    eapply dl_iff; [|apply while_delivers, Hf]. intros v ms. cbv beta.
    assert (K : forall rows acc, fold_left (fun rows row => rows ++ [row]) rows acc = acc ++ rows :> list (list Q)).
    { induction rows as [|r rows IHr]; intros acc; cbn [fold_left]; [rewrite app_nil_r; reflexivity|]. rewrite IHr, <- app_assoc. reflexivity. }
    split; [intros (rows & -> & H); rewrite K; exact H|]. intros H. exists v. rewrite K. auto.
  Qed.
  Lemma count_delivers c : delivers (on_rs (rs_count (next_row read_row)) rs) c (fun n ms => exists rows, n = N.of_nat (length rows) /\ rows_reply (c_cap c) layout rows ms).
  Proof.
    apply (dl_rounds (fun f => on_rs (while_rows f (next_row read_row) (fun cnt _ => cnt + 1) 0) rs)). intros f Hf.
    eapply dl_iff; [|apply while_delivers, Hf]. intros v ms. cbv beta.
    assert (K : forall (rows : list (list Q)) acc, fold_left (fun cnt _ => cnt + 1) rows acc = acc + N.of_nat (length rows)).
    { induction rows as [|r rows IHr]; intros acc; cbn [fold_left length]; [lia|]. rewrite IHr. lia. }
    split; intros (rows & -> & H); exists rows; rewrite K in *; auto.
  Qed.
  Lemma first_delivers c : delivers (on_rs (rs_first_or_none (next_row read_row)) rs) c (fun o ms => exists rows, o = hd_error rows /\ rows_reply (c_cap c) layout rows ms).
  Proof.
    apply (dl_rounds (fun f => on_rs (while_rows f (next_row read_row) (fun first row => match first with None => Some row | Some _ => first end) None) rs)). intros f Hf.
    eapply dl_iff; [|apply while_delivers, Hf]. intros v ms. cbv beta.
    assert (K1 : forall (rows : list (list Q)) r, fold_left (fun first row => match first with None => Some row | Some _ => first end) rows (Some r) = Some r).
    { induction rows as [|r' rows IHr]; intros r; cbn [fold_left]; auto. }
    assert (K : forall (rows : list (list Q)), fold_left (fun first row => match first with None => Some row | Some _ => first end) rows None = hd_error rows).
    { intros [|r rows]; cbn [fold_left hd_error]; auto. }
    split; intros (rows & -> & H); exists rows; rewrite K in *; auto.
  Qed.
End Rows.
Lemma text_takes rs : takes_message (text_rows rs) (fun row m => fields [text_row_layout (N.of_nat (length (rs_col_defs rs))) row; leftover] m).
Proof. apply tm_of, accepts_text_row. Qed.
Lemma binary_takes rs : takes_message (binary_rows rs) (fun row m => fields [binary_row_layout (rs_col_types rs) row; leftover] m).
Proof. apply tm_of, accepts_binary_row. Qed.

(** ** Events *)
Lemma event_loop_delivers crc s f : forall c, (length (arriving c) < f)%nat -> delivers (next_event_loop crc f s) c (event_reply crc s).
Proof.
  set (ck := p_checksum (s_pv4 s)). set (vl := s_validate s).
  induction f as [|f IH]; intros c Hf; [lia|]. cbn [next_event_loop]. unfold recv_and_parse_event.
  apply (dl_at _ (ibind recv_msg (fun m => e <~ (match m with
    | [] => ierr (EIncomplete None)
    | header :: msg =>
      if s_non_block s && (b2n header =? 0xfe) then iret SeEnd
      else if negb (b2n header =? 0) then ierr EPacket
      else o <~ parse (parse_event crc (s_pv4 s) (s_validate s)) msg ;; iret (match o with Some e => SeSingle e | None => SeUnsupported end) end) ;;
      match e with SeSingle e => iret (Some e) | SeUnsupported => next_event_loop crc f s | SeEnd => iret None end)) c c); [|reflexivity|].
  { unfold ibind at 1 2. unfold ibind at 2. destruct (recv_msg c) as [[m| | |] d]; reflexivity. }
  apply dl_recv; [intros v (e & m & E & _); destruct e; discriminate E|]. intros m d E Cd Sh. unfold event_reply. fold ck vl.
  destruct m as [|b m].
  { apply dl_none; [discriminate|]. intros v ms (e & m & E1 & Fo & H). destruct e as [|x e]; cbn [app] in E1.
    - injection E1 as <- ->. destruct v; [destruct H as (? & [=] & _)|destruct H as (_ & ? & [=])].
    - injection E1 as <- _. inversion Fo; subst. destruct H2 as (? & [=] & _). }
  destruct (starts_dec xfe b m) as [S1 S2]. change (b2n xfe) with 254 in *.
  destruct (s_non_block s && (b2n b =? 254)) eqn:B.
  { apply andb_true_iff in B. destruct B as [B1 B2]. specialize (S1 B2). apply (dl_iff _ _ (fun v ms => v = None /\ ms = [])); [|exact (dl_ret None d)]. intros v ms. split.
    - intros [-> ->]. exists [], (b :: m). auto.
    - intros (e & m' & E1 & Fo & H). destruct S1 as (r & S1). injection S1 as -> ->. destruct e as [|x e]; cbn [app] in E1.
      + injection E1 as <- ->. destruct v; [destruct H as (? & [=] & _)|auto].
      + injection E1 as <- _. inversion Fo; subst. destruct H2 as (? & [=] & _). }
  assert (NE : s_non_block s = true -> ~ starts_with xfe (b :: m)).
  { intros Hn. rewrite Hn in B. exact (S2 B). }
  clear S1 S2. destruct (starts_dec x00 b m) as [Z1 Z2]. change (b2n x00) with 0 in *. destruct (b2n b =? 0) eqn:B0; cbn [negb].
  - specialize (Z1 eq_refl). destruct Z1 as (r & Z1). injection Z1 as -> ->.
    pose proof (tm_of _ _ (accepts_event crc (s_pv4 s) (s_validate s)) r) as Te. fold ck vl in Te.
    assert (Em : forall o, event_message crc ck vl o (x00 :: r) <-> fst (parse_event crc (s_pv4 s) vl r) = Ok o).
    { intros o. rewrite Te. split; [intros (body & Eb & H); injection Eb as <-; exact H|]. intros H. exists r. auto. }
    destruct (fst (parse_event crc (s_pv4 s) vl r)) as [[e|]|e| |] eqn:P.
    + apply (dl_at _ (iret (Some e)) d d); [unfold ibind, parse, ilift; fold vl; rewrite P; reflexivity|reflexivity|]. eapply dl_iff; [|apply dl_ret]. intros v ms. split.
      * intros [-> ->]. exists [], (x00 :: r). split; [reflexivity|]. split; [constructor|]. apply Em. reflexivity.
      * intros (el & m' & E1 & Fo & H). destruct el as [|x el]; cbn [app] in E1.
        { injection E1 as <- ->. destruct v; [apply Em in H; split; [congruence|reflexivity]|destruct H as (_ & ? & [=])]. }
        injection E1 as <- _. inversion Fo; subst. apply Em in H2. discriminate H2.
    + apply (dl_at _ (next_event_loop crc f s) d d); [unfold ibind, parse, ilift; fold vl; rewrite P; reflexivity|reflexivity|]. eapply dl_iff; [|apply IH; lia]. intros v ms. unfold event_reply. fold ck vl. split.
      * intros (el & m' & -> & Fo & H). exists ((x00 :: r) :: el), m'. split; [reflexivity|]. split; [|exact H]. constructor; [|exact Fo]. apply Em. reflexivity.
      * intros (el & m' & E1 & Fo & H). destruct el as [|x el]; cbn [app] in E1.
        { injection E1 as <- ->. destruct v; [apply Em in H; discriminate H|destruct H as (_ & ? & [=])]. }
        injection E1 as <- ->. inversion Fo; subst. exists el, m'. auto.
    + apply dl_none; [unfold ibind, parse, ilift; fold vl; rewrite P; discriminate|]. intros v ms (el & m' & E1 & Fo & H). destruct el as [|x el]; cbn [app] in E1.
      { injection E1 as <- ->. destruct v; [apply Em in H; discriminate H|destruct H as (_ & ? & [=])]. }
      injection E1 as <- _. inversion Fo; subst. apply Em in H2. discriminate H2.
    + apply dl_none; [unfold ibind, parse, ilift; fold vl; rewrite P; discriminate|]. intros v ms (el & m' & E1 & Fo & H). destruct el as [|x el]; cbn [app] in E1.
      { injection E1 as <- ->. destruct v; [apply Em in H; discriminate H|destruct H as (_ & ? & [=])]. }
      injection E1 as <- _. inversion Fo; subst. apply Em in H2. discriminate H2.
    + apply dl_none; [unfold ibind, parse, ilift; fold vl; rewrite P; discriminate|]. intros v ms (el & m' & E1 & Fo & H). destruct el as [|x el]; cbn [app] in E1.
      { injection E1 as <- ->. destruct v; [apply Em in H; discriminate H|destruct H as (_ & ? & [=])]. }
      injection E1 as <- _. inversion Fo; subst. apply Em in H2. discriminate H2.
  - specialize (Z2 eq_refl). apply dl_none; [discriminate|]. intros v ms (e & m' & E1 & Fo & H). destruct e as [|x e]; cbn [app] in E1.
    + injection E1 as <- ->. destruct v; [destruct H as (? & H & _); apply Z2; eexists; exact H|destruct H as (Hn & H); exact (NE Hn H)].
    + injection E1 as <- _. inversion Fo; subst. destruct H2 as (? & H2 & _). apply Z2. eexists. exact H2.
Qed.
Lemma event_delivers crc s c : s_completed s = false -> delivers (next_event crc s) c (event_reply crc s).
Proof.
  intros Hc. apply (dl_at _ (fun c => next_event_loop crc (S (sched_len (c_rd c))) s c) c c); [unfold next_event; rewrite Hc; reflexivity|reflexivity|].
  apply (dl_rounds (fun f => next_event_loop crc f s)). intros f. apply event_loop_delivers.
Qed.
