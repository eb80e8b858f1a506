(** * Exactly when a peer brings a client down *)
From Coq Require Import Strings.String.
From Coq Require Import List NArith ZArith Lia Arith Bool.
From Verif Require Import Model.Base Model.BytesParser Model.LenEnc Model.Utf8 Model.Conn Model.Flags Model.Packet Model.Auth Model.Cmd Model.Col Model.Row Model.Stmt
  Model.Extract Model.Session Model.Event Model.Stream Spec.Framing Spec.Decoders Spec.Catalogue Spec.Programs Spec.Panics Spec.Hostile Spec.HostileExact
  Proofs.BaseLemmas Proofs.BytesParserProofs Proofs.BothWaysProofs Proofs.ConnProofs Proofs.AuthProofs Proofs.TotalProofs Proofs.PanicProofs Proofs.EventPanicProofs Proofs.ExactPanicProofs Proofs.ScheduleProofs Proofs.HostileProofs.
Import ListNotations.
Open Scope N_scope.

(** ** Messages that follow *)
Lemma follow_recv c msg : follow (arriving c) [] msg <-> exists d, recv_msg c = (Ok msg, d).
Proof.
  split.
  - intros (w0 & seqs & w & after & W0 & W & E). inversion W0; subst. cbn [app] in E.
    destruct (recv_msg_spec seqs msg w c after W E) as (d & Ed & _). eauto.
  - intros (d & E). destruct (recv_msg_total c) as [(seqs & p & w & rest & c2 & E2 & W & D & D2)|(c2 & E2)]; [|congruence].
    rewrite E2 in E. injection E as <- _. exists [], seqs, w, rest. split; [constructor|]. split; [exact W|exact D].
Qed.
Lemma follow_later c m d earlier msg : recv_msg c = (Ok m, d) -> (follow (arriving c) (m :: earlier) msg <-> follow (arriving d) earlier msg).
Proof.
  intros E. destruct (recv_msg_total c) as [(seqs & p & w & rest & c2 & E2 & W & D & D2)|(c2 & E2)]; [|congruence].
  rewrite E2 in E. injection E as -> ->. unfold arriving. rewrite D2, D. split.
  - intros (w0 & seqs' & w' & after & W0 & W' & E). inversion W0 as [|p w1 ps ws seqs1 M1 M2 Ep Ew]; subst w0 p ps.
    assert (D3 : delivered (c_rd c) = w1 ++ ws ++ w' ++ after) by (rewrite D, E, <- app_assoc; reflexivity).
    destruct (recv_msg_spec seqs1 m w1 c _ M1 D3) as (d' & E' & A' & _). rewrite E2 in E'. injection E' as <-. rewrite D2 in A'.
    exists ws, seqs', w', after. split; [exact M2|]. split; [exact W'|exact A'].
  - intros (w0 & seqs' & w' & after & W0 & W' & ->). exists (w ++ w0), seqs', w', after. split; [econstructor; eassumption|]. split; [exact W'|].
    rewrite <- app_assoc. reflexivity.
Qed.
Lemma follow_first c m d msg earlier x : recv_msg c = (Ok m, d) -> follow (arriving c) (x :: earlier) msg -> x = m.
Proof.
  intros E (w0 & seqs' & w' & after & W0 & W' & A). inversion W0 as [|p w1 ps ws seqs1 M1 M2]; subst. rewrite <- app_assoc in A.
  destruct (recv_msg_spec seqs1 x w1 c _ M1 A) as (d' & E' & _). congruence.
Qed.
Lemma follow_one c m d msg : recv_msg c = (Ok m, d) -> (follow (arriving c) [] msg <-> msg = m).
Proof.
  intros E. rewrite follow_recv. split; [intros (d' & E'); congruence|]. intros ->. eauto.
Qed.
Lemma follow_none c e d earlier msg : recv_msg c = (Err e, d) -> ~ follow (arriving c) earlier msg.
Proof.
  intros E F. destruct earlier as [|x l]; [apply follow_recv in F; destruct F as (d' & F); congruence|].
  destruct F as (w0 & seqs' & w' & after & W0 & W' & A). inversion W0 as [|p w1 ps ws seqs1 M1 M2]; subst. rewrite <- app_assoc in A.
  destruct (recv_msg_spec seqs1 x w1 c _ M1 A) as (d' & E' & _). congruence.
Qed.

(** a statement about the messages, read off one at a time *)
Definition after_some (bs : bytes) (E : bytes -> Prop) (P : bytes -> Prop) : Prop :=
  exists earlier msg, Forall E earlier /\ follow bs earlier msg /\ P msg.
Lemma after_step (E P : bytes -> Prop) c m d : recv_msg c = (Ok m, d) ->
  (after_some (arriving c) E P <-> P m \/ (E m /\ after_some (arriving d) E P)).
Proof.
  intros R. split.
  - intros (earlier & msg & F & Fo & H). destruct earlier as [|x l].
    + apply (follow_one _ _ _ _ R) in Fo. subst. auto.
    + pose proof (follow_first _ _ _ _ _ _ R Fo) as ->. apply (follow_later _ _ _ _ _ R) in Fo. inversion F; subst. right. split; [assumption|]. exists l, msg. auto.
  - intros [H|[H (l & msg & F & Fo & Hm)]].
    + exists [], m. split; [constructor|]. split; [apply (follow_one _ _ _ _ R); reflexivity|exact H].
    + exists (m :: l), msg. split; [constructor; assumption|]. split; [apply (follow_later _ _ _ _ _ R); exact Fo|exact Hm].
Qed.
Lemma after_none (E P : bytes -> Prop) c e d : recv_msg c = (Err e, d) -> ~ after_some (arriving c) E P.
Proof. intros R (l & msg & _ & F & _). eapply follow_none; eassumption. Qed.

(** ** Computations *)
Definition exactly {A} (m : io A) (c : conn) (P : panic -> Prop) : Prop := forall w, fst (m c) = Panic w <-> P w.
Lemma exactly_panics {A} (m : io A) c P : exactly m c P -> fst (m c) <> Loop -> panics_exactly (fst (m c)) P.
Proof. intros H L. split; assumption. Qed.
Lemma exactly_iff {A} (m : io A) c (P Q : panic -> Prop) : (forall w, P w <-> Q w) -> exactly m c P -> exactly m c Q.
Proof. intros H X w. rewrite (X w). apply H. Qed.
Lemma exactly_never {A} (m : io A) c : tame (fun _ _ => False) m -> exactly m c (fun _ => False).
Proof. intros T w. destruct (T c) as [_ H]. split; [|contradiction]. intros E. rewrite E in H. exact H. Qed.
Lemma exactly_bind {A B} (m : io A) (f : A -> io B) c a d P : m c = (Ok a, d) -> exactly (f a) d P -> exactly (ibind m f) c P.
Proof. intros E H w. rewrite (ibind_ok _ _ _ _ _ E). apply H. Qed.
Lemma exactly_at {A} (m : io A) c r d (P : panic -> Prop) : m c = (r, d) -> (forall w, r = Panic w <-> P w) -> exactly m c P.
Proof. intros E H w. rewrite E. apply H. Qed.
Lemma exactly_recv {A} (f : bytes -> io A) c (P : panic -> Prop) :
  (forall m d, recv_msg c = (Ok m, d) -> exactly (f m) d P) -> (forall e d, recv_msg c = (Err e, d) -> forall w, ~ P w) -> exactly (ibind recv_msg f) c P.
Proof.
  intros H N. destruct (recv_cases c) as [(m & d & E)|(d & E)]; [eapply exactly_bind; eauto|].
  intros w. rewrite (ibind_err _ _ _ _ _ E). cbn [fst]. split; [discriminate|]. intros X. exfalso. exact (N _ _ E w X).
Qed.
Lemma up_never : up (fun _ _ => False). Proof. repeat intro. assumption. Qed.

(** sending the request *)
Lemma exactly_sent {A} checks msg (k : unit -> io A) c (P : panic -> Prop) : accepting (c_ws c) -> checks = false \/ packet_count (blen msg) <= 255 ->
  (forall d, arriving d = arriving c -> accepting (c_ws d) -> exactly (k tt) d P) -> exactly (ibind (send_msg checks msg true) k) c P.
Proof.
  intros Ac L H. destruct (send_msg_spec checks c msg true Ac) as (seqs & w & d & E & _ & _ & _ & _ & _ & Ad & Sb); [reflexivity|exact L|].
  eapply exactly_bind; [exact E|]. apply H; [exact (send_keeps _ _ _ _ _ _ E)|exact Ad].
Qed.
Lemma exactly_reply {A} msg (k : unit -> io A) c (P : panic -> Prop) : accepting (c_ws c) -> c_pkt_nr c < 256 ->
  (forall d, arriving d = arriving c -> accepting (c_ws d) -> exactly (k tt) d P) -> exactly (ibind (send_msg false msg false) k) c P.
Proof.
  intros Ac L H. destruct (send_msg_spec false c msg false Ac) as (seqs & w & d & E & _ & _ & _ & _ & _ & Ad & Sb); [exact L|left; reflexivity|].
  eapply exactly_bind; [exact E|]. apply H; [exact (send_keeps _ _ _ _ _ _ E)|exact Ad].
Qed.
Lemma recv_next c m d : recv_msg c = (Ok m, d) -> (accepting (c_ws c) -> accepting (c_ws d)) /\ c_pkt_nr d < 256 /\ c_cap d = c_cap c /\ (length (arriving d) < length (arriving c))%nat.
Proof.
  intros E. pose proof (recv_takes _ _ _ E) as T. destruct (recv_msg_total c) as [(seqs & p & w & rest & c2 & E2 & W & D & D2)|(c2 & E2)]; [|congruence].
  destruct (recv_msg_spec seqs p w c rest W D) as (c3 & E3 & _ & N & Sb). rewrite E in E3. injection E3 as <- <-. rewrite N.
  split; [|split; [|split; [|exact T]]].
  - destruct Sb as (Sb & _). rewrite Sb. auto.
  - unfold next_seq. destruct (N.eqb_spec (b2n (last seqs x00)) 255); [lia|]. pose proof (b2n_lt (last seqs x00)). lia.
  - destruct Sb as (_ & _ & Sb & _). exact Sb.
Qed.

(** ** Statements without a result set *)
Lemma exec_exactly (loop : nat -> io unit) : (forall f, loop (S f) = msg <~ recv_msg ;;
    match msg with
    | [] => ipanic PIndex
    | b :: _ => if b2n b =? 255 then server_error msg
      else if b2n b =? 0 then fun c => (_ <~ parse (read_ok_packet (c_cap c)) msg ;; iret tt) c else loop f
    end) -> forall f c, (length (arriving c) < f)%nat -> exactly (loop f) c (fun w => w = PIndex /\ after_some (arriving c) passed_over (fun m => m = [])).
Proof.
  intros Eq f. induction f as [|f IH]; intros c L; [lia|]. rewrite Eq. apply exactly_recv; [|intros e d E w [_ X]; eapply after_none; eassumption].
  intros m d E. pose proof (recv_next _ _ _ E) as (_ & _ & _ & T). destruct m as [|b m].
  - intros w. cbn [fst ipanic]. rewrite (after_step _ _ _ _ _ E). split; [intros X; injection X as <-; auto|intros [-> _]; reflexivity].
  - assert (No : forall w, ~ passed_over (b :: m) -> (w = PIndex /\ after_some (arriving c) passed_over (fun m => m = [])) <-> False).
    { intros w N. split; [|contradiction]. intros [_ X]. apply (after_step _ _ _ _ _ E) in X. destruct X as [X|[X _]]; [discriminate X|auto]. }
    destruct (N.eqb_spec (b2n b) 255) as [B|B]; [|destruct (N.eqb_spec (b2n b) 0) as [B0|B0]].
    + eapply exactly_iff; [|apply exactly_never, tame_server_error, up_never]. intros w. symmetry. apply No. intros (x & r & X & _ & Y). injection X as <- <-. apply Y.
      rewrite <- (n2b_b2n b), B. reflexivity.
    + eapply exactly_iff; [|apply exactly_never, tame_ok_only, up_never]. intros w. symmetry. apply No. intros (x & r & X & Y & _). injection X as <- <-. apply Y.
      rewrite <- (n2b_b2n b), B0. reflexivity.
    + eapply exactly_iff; [|apply IH; lia]. intros w. rewrite (after_step _ _ _ _ _ E). split.
      * intros [-> X]. split; [reflexivity|]. right. split; [|exact X]. exists b, m. split; [reflexivity|]. split; intros ->; auto.
      * intros [-> [X|[_ X]]]; [discriminate X|auto].
Qed.
Lemma rounds_now {A} (loop : nat -> io A) c (P : panic -> Prop) : (forall f, (length (arriving c) < f)%nat -> exactly (loop f) c P) -> exactly (fun c => loop (S (sched_len (c_rd c))) c) c P.
Proof. intros H. apply (H (S (sched_len (c_rd c)))). unfold arriving. pose proof (delivered_sched (fun x => x) (fun x => x) (c_rd c)). lia. Qed.
Lemma query_exec_exactly checks sql c : accepting (c_ws c) -> checks = false \/ packet_count (blen (write_query sql)) <= 255 ->
  exactly (query_exec checks sql) c (fun w => w = PIndex /\ after_some (arriving c) passed_over (fun m => m = [])).
Proof.
  intros Ac L. unfold query_exec. apply exactly_sent; [exact Ac|exact L|]. intros d <- _. apply (rounds_now query_exec_loop). intros f. apply exec_exactly. reflexivity.
Qed.
Lemma stmt_exec_exactly checks ps params c : accepting (c_ws c) -> checks = false \/ packet_count (blen (write_stmt_execute (ps_stmt_id ps) params)) <= 255 ->
  exactly (stmt_exec checks ps params) c (fun w => w = PIndex /\ after_some (arriving c) passed_over (fun m => m = [])).
Proof.
  intros Ac L. unfold stmt_exec. apply exactly_sent; [exact Ac|exact L|]. intros d <- _. apply (rounds_now stmt_exec_loop). intros f. apply exec_exactly. reflexivity.
Qed.

(** ** Queries *)
Lemma new_rs_exactly id c : exactly (new_result_set id) c (fun w => w = PIndex /\ (follow (arriving c) [] [] \/ follow (arriving c) [] [xfb])).
Proof.
  unfold new_result_set. apply (exactly_recv (fun msg => col_cnt <~ ilift (parse_col_cnt_packet (c_cap c) msg) ;; if col_cnt =? 0 then iret (rs_empty id) else
     col_defs <~ recv_col_defs (N.to_nat col_cnt) ;; _ <~ recv_defs_eof ;; iret (rs_new col_defs id))).
  - intros m d E. pose proof (count_cases (c_cap c) m) as H. destruct (parse_col_cnt_packet (c_cap c) m) as [k|e|w0|] eqn:K; [| | |contradiction].
    + eapply exactly_bind; [reflexivity|]. eapply exactly_iff; [|apply exactly_never].
      * intros w. split; [contradiction|]. intros [_ [X|X]]; apply (follow_one _ _ _ _ E) in X; subst m; discriminate K.
      * pose proof up_never as Un. destruct (k =? 0); tm.
    + eapply exactly_at; [reflexivity|]. intros w. split; [discriminate|]. intros [_ [X|X]]; apply (follow_one _ _ _ _ E) in X; subst m; discriminate K.
    + eapply exactly_at; [reflexivity|]. intros w. split; [|intros [-> _]; destruct H as [-> _]; reflexivity]. intros X. injection X as <-. destruct H as [-> [H|H]]; split; auto; [left|right]; apply (follow_one _ _ _ _ E); auto.
  - intros e d E w [_ [X|X]]; eapply follow_none; eassumption.
Qed.
Lemma query_qry_exactly checks sql c : accepting (c_ws c) -> checks = false \/ packet_count (blen (write_query sql)) <= 255 ->
  exactly (query_qry checks sql) c (fun w => w = PIndex /\ (follow (arriving c) [] [] \/ follow (arriving c) [] [xfb])).
Proof. intros Ac L. unfold query_qry. apply exactly_sent; [exact Ac|exact L|]. intros d <- _. apply new_rs_exactly. Qed.
Lemma stmt_qry_exactly checks ps params c : accepting (c_ws c) -> checks = false \/ packet_count (blen (write_stmt_execute (ps_stmt_id ps) params)) <= 255 ->
  exactly (stmt_qry checks ps params) c (fun w => w = PIndex /\ (follow (arriving c) [] [] \/ follow (arriving c) [] [xfb])).
Proof. intros Ac L. unfold stmt_qry. apply exactly_sent; [exact Ac|exact L|]. intros d <- _. apply new_rs_exactly. Qed.

(** ** Rows *)
Lemma end_or_row b m : ((b2n b =? 254) && (blen (b :: m) <=? 0xffffff) = true /\ ~ row_message (b :: m)) \/
  ((b2n b =? 254) && (blen (b :: m) <=? 0xffffff) = false /\ row_message (b :: m)).
Proof.
  destruct ((b2n b =? 254) && (blen (b :: m) <=? 0xffffff)) eqn:E; [left|right]; split; auto.
  - apply andb_true_iff in E. destruct E as [E1 E2]. apply N.eqb_eq in E1. apply N.leb_le in E2. intros (x & r & X & N). injection X as <- <-. apply N. split; [|exact E2].
    rewrite <- (n2b_b2n b), E1. reflexivity.
  - exists b, m. split; [reflexivity|]. intros [-> X]. apply andb_false_iff in E. destruct E as [E|E]; [discriminate E|]. apply N.leb_gt in E. unfold blen in E. lia.
Qed.
(** what one call does with a message *)
Lemma binary_msg cap rs m : let r := next_row_msg binary_rows cap rs m in
  (forall w, fst r = Panic w <-> w = PArith /\ row_message m /\ binary_row_panics (rs_col_types rs) m) /\
  ((exists row, fst r = Ok (Some row)) <-> sound_row (rs_col_types rs) m) /\
  (forall row, fst r = Ok (Some row) -> snd r = rs) /\ fst r <> Loop.
Proof.
  cbv zeta. unfold next_row_msg. destruct m as [|b m].
  { cbn [fst snd]. split; [|split; [|split; [discriminate|discriminate]]].
    - intros w. split; [discriminate|]. intros (_ & (x & r & X & _) & _). discriminate X.
    - split; [intros (row & X); discriminate X|]. intros ((x & r & X & _) & _). discriminate X. }
  destruct (end_or_row b m) as [[-> N]|[-> R]].
  - assert (F : forall r : res unit, returns r -> (forall w, fst (match r with Ok _ => (Ok None, rs_complete rs) | Err _ => (Err EPacket, rs) | Panic p => (Panic p, rs) | Loop => (Loop, rs) end : res (option (list binary_value)) * result_set) = Panic w <-> w = PArith /\ row_message (b :: m) /\ binary_row_panics (rs_col_types rs) (b :: m)) /\
      ((exists row, fst (match r with Ok _ => (Ok None, rs_complete rs) | Err _ => (Err EPacket, rs) | Panic p => (Panic p, rs) | Loop => (Loop, rs) end : res (option (list binary_value)) * result_set) = Ok (Some row)) <-> sound_row (rs_col_types rs) (b :: m)) /\
      (forall row, fst (match r with Ok _ => (Ok None, rs_complete rs) | Err _ => (Err EPacket, rs) | Panic p => (Panic p, rs) | Loop => (Loop, rs) end : res (option (list binary_value)) * result_set) = Ok (Some row) -> snd (match r with Ok _ => (Ok (@None (list binary_value)), rs_complete rs) | Err _ => (Err EPacket, rs) | Panic p => (Panic p, rs) | Loop => (Loop, rs) end) = rs) /\
      fst (match r with Ok _ => (Ok None, rs_complete rs) | Err _ => (Err EPacket, rs) | Panic p => (Panic p, rs) | Loop => (Loop, rs) end : res (option (list binary_value)) * result_set) <> Loop).
    { intros r [[a ->]|[e ->]]; cbn [fst snd]; (split; [|split; [|split; discriminate]]); try (intros w; split; [discriminate|intros (_ & X & _); contradiction]);
        (split; [intros (row & X); discriminate X|intros (X & _); contradiction]). }
    destruct (contains cap DEPRECATE_EOF); apply F.
    + destruct (np_ok cap (b :: m)) as [[a ->]|[e ->]]; [left|right]; eexists; reflexivity.
    + destruct (np_eof cap (b :: m)) as [[a ->]|[e ->]]; [left|right]; eexists; reflexivity.
  - destruct (binary_row_exact (rs_col_types rs) (b :: m)) as [X Y]. unfold binary_rows. cbn [fst snd].
    destruct (fst (read_binary_row (rs_col_types rs) (b :: m))) as [row|e|p|] eqn:Er; cbn [rmap]; [| | |contradiction].
    + split; [|split; [|split; [reflexivity|discriminate]]].
      * intros w. split; [discriminate|]. intros (Ew & _ & H). exfalso. assert (Z : Ok row = Panic w) by (apply X; auto). discriminate Z.
      * split; [|intros _; exists row; reflexivity]. intros _. split; [exact R|]. exists row. exact Er.
    + split; [|split; [|split; discriminate]].
      * intros w. split; [discriminate|]. intros (Ew & _ & H). exfalso. assert (Z : Err e = @Panic (list binary_value) w) by (apply X; auto). discriminate Z.
      * split; [intros (row & Z); discriminate Z|]. intros (_ & row & Z). congruence.
    + split; [|split; [|split; discriminate]].
      * intros w. split; [|intros (Ew & _ & H); assert (Z : Panic p = @Panic (list binary_value) w) by (apply X; auto); injection Z as ->; reflexivity].
        intros Z. injection Z as ->. destruct (proj1 (X w) eq_refl) as [-> H]. auto.
      * split; [intros (row & Z); discriminate Z|]. intros (_ & row & Z). congruence.
Qed.
Definition bad_row (cts : list column_type) (msg : bytes) : Prop := row_message msg /\ binary_row_panics cts msg.
(** a source of binary rows, one call at a time *)
Definition row_steps {A} (next : rs_io (option A)) : Prop := forall rs c,
  (rs_completed rs = true -> next rs c = (Ok None, rs, c)) /\
  (rs_completed rs = false ->
    (forall m d, recv_msg c = (Ok m, d) -> exists r rs', next rs c = (r, rs', d) /\
      (forall w, r = Panic w <-> w = PArith /\ bad_row (rs_col_types rs) m) /\ ((exists row, r = Ok (Some row)) <-> sound_row (rs_col_types rs) m) /\
      (forall row, r = Ok (Some row) -> rs' = rs) /\ r <> Loop) /\
    (forall e d, recv_msg c = (Err e, d) -> next rs c = (Err e, rs, d))).
Lemma next_steps : row_steps (next_row binary_rows).
Proof.
  intros rs c. unfold next_row. split; [intros ->; reflexivity|]. intros ->. split.
  - intros m d ->. pose proof (binary_msg (c_cap c) rs m) as H. cbv zeta in H. destruct (next_row_msg binary_rows (c_cap c) rs m) as [r rs']. exists r, rs'. split; [reflexivity|exact H].
  - intros e d ->. reflexivity.
Qed.
Lemma map_steps {O} (f : list binary_value -> O) : row_steps (map_next_row binary_rows f).
Proof.
  intros rs c. unfold map_next_row. destruct (next_steps rs c) as [H1 H2]. split; [intros X; rewrite (H1 X); reflexivity|]. intros X. destruct (H2 X) as [H3 H4]. split.
  - intros m d E. destruct (H3 m d E) as (r & rs' & -> & P & R & K & L). exists (rmap (option_map f) r), rs'. split; [reflexivity|]. split; [|split; [|split]].
    + intros w. rewrite <- (P w). destruct r as [[x|]|e|p|]; cbn; split; intros Z; try discriminate Z; congruence.
    + rewrite <- R. split.
      * intros (row & Z). destruct r as [[x|]|e|p|]; try discriminate Z. eauto.
      * intros (row & ->). eexists. reflexivity.
    + intros row Z. destruct r as [[x|]|e|p|]; try discriminate Z. eapply K. reflexivity.
    + destruct r as [[x|]|e|p|]; try discriminate. contradiction.
  - intros e d E. rewrite (H4 e d E). reflexivity.
Qed.
Lemma source_steps {A} (next : rs_io (option A)) : binary_source next -> row_steps next.
Proof. intros []; [apply next_steps|apply map_steps]. Qed.
Lemma next_exactly {A} (next : rs_io (option A)) rs c : row_steps next ->
  exactly (call_rs next rs) c (fun w => w = PArith /\ rs_completed rs = false /\ exists msg, follow (arriving c) [] msg /\ bad_row (rs_col_types rs) msg).
Proof.
  intros H w. unfold call_rs. destruct (H rs c) as [H1 H2]. destruct (rs_completed rs) eqn:C.
  - rewrite (H1 eq_refl). cbn. split; [discriminate|]. intros (_ & X & _). discriminate X.
  - destruct (H2 eq_refl) as [H3 H4]. destruct (recv_cases c) as [(m & d & E)|(d & E)].
    + destruct (H3 m d E) as (r & rs' & -> & P & _). cbn [fst]. transitivity (r = Panic w); [destruct r; cbn; split; intros Z; try discriminate Z; congruence|].
      rewrite (P w). split.
      * intros [-> B]. split; [reflexivity|]. split; [reflexivity|]. exists m. split; [apply (follow_one _ _ _ _ E); reflexivity|exact B].
      * intros (-> & _ & msg & F & B). apply (follow_one _ _ _ _ E) in F. subst. auto.
    + rewrite (H4 _ _ E). cbn. split; [discriminate|]. intros (_ & _ & msg & F & _). exfalso. eapply follow_none; eassumption.
Qed.
Lemma while_exactly {A B} (next : rs_io (option A)) (step : B -> A -> B) : row_steps next -> forall f acc rs c, (length (arriving c) < f)%nat ->
  forall w, fst (fst (while_rows f next step acc rs c)) = Panic w <-> w = PArith /\ rs_completed rs = false /\ after_some (arriving c) (sound_row (rs_col_types rs)) (bad_row (rs_col_types rs)).
Proof.
  intros H f. induction f as [|f IH]; intros acc rs c L w; [lia|]. cbn [while_rows]. destruct (H rs c) as [H1 H2]. destruct (rs_completed rs) eqn:C.
  - rewrite (H1 eq_refl). cbn. split; [discriminate|]. intros (_ & X & _). discriminate X.
  - destruct (H2 eq_refl) as [H3 H4]. destruct (recv_cases c) as [(m & d & E)|(d & E)].
    + destruct (H3 m d E) as (r & rs' & -> & P & R & K & Lo). rewrite (after_step _ _ _ _ _ E).
      assert (No : (forall row, r <> Ok (Some row)) -> (w = PArith /\ false = false /\ (bad_row (rs_col_types rs) m \/ sound_row (rs_col_types rs) m /\ after_some (arriving d) (sound_row (rs_col_types rs)) (bad_row (rs_col_types rs))) <-> r = Panic w)).
      { intros N. rewrite (P w). split; [|tauto]. intros (-> & _ & [X|[X _]]); [auto|]. apply R in X. destruct X as (row & X). contradiction (N row). }
      destruct r as [[row|]|e|p|]; cbn [fst].
      * rewrite (K row eq_refl). pose proof (recv_next _ _ _ E) as (_ & _ & _ & T). rewrite (IH _ rs d ltac:(lia) w). rewrite C. split.
        -- intros (-> & _ & X). split; [reflexivity|]. split; [reflexivity|]. right. split; [apply R; eauto|exact X].
        -- intros (-> & _ & [X|[_ X]]); [|auto]. assert (Z : Ok (Some row) = @Panic (option A) PArith) by (apply P; auto). discriminate Z.
      * rewrite No by discriminate. split; discriminate.
      * rewrite No by discriminate. split; discriminate.
      * rewrite No by discriminate. split; intros Z; injection Z as ->; reflexivity.
      * contradiction.
    + rewrite (H4 _ _ E). cbn. split; [discriminate|]. intros (_ & _ & X). exfalso. eapply after_none; eassumption.
Qed.
Definition rows_down (rs : result_set) (c : conn) (w : panic) : Prop :=
  w = PArith /\ rs_completed rs = false /\ after_some (arriving c) (sound_row (rs_col_types rs)) (bad_row (rs_col_types rs)).
Lemma whole_exactly {A} (next : rs_io (option A)) rs c : row_steps next ->
  exactly (call_rs (rs_all next) rs) c (rows_down rs c) /\ exactly (call_rs (rs_count next) rs) c (rows_down rs c) /\
  exactly (call_rs (rs_first_or_none next) rs) c (rows_down rs c) /\ exactly (call_rs (rs_first next) rs) c (rows_down rs c).
Proof.
  intros H. assert (L : (length (arriving c) < S (sched_len (c_rd c)))%nat).
  { unfold arriving. pose proof (delivered_sched (fun x => x) (fun x => x) (c_rd c)). lia. }
  split; [|split; [|split]]; intros w; unfold call_rs, rs_all, rs_count, rs_first, rs_first_or_none, rows_down;
    match goal with |- context [while_rows ?f ?n ?s ?a rs c] => pose proof (while_exactly n s H f a rs c L w) as X; destruct (while_rows f n s a rs c) as [[x rs'] d'] end;
    rewrite <- X; cbn [fst]; clear X.
  1-3: destruct x; cbn; split; intros Z; try discriminate Z; congruence.
  destruct x as [[row|]|e|p|]; cbn; split; intros Z; try discriminate Z; congruence.
Qed.

(** ** Events *)
Lemma event_exactly_loop crc s : forall f c, (length (arriving c) < f)%nat ->
  exactly (next_event_loop crc f s) c (fun w => w = PArith /\ after_some (arriving c) (unknown_event crc (s_pv4 s) (s_validate s))
    (fun m => exists ev, m = x00 :: ev /\ event_panics crc (p_checksum (s_pv4 s)) (s_validate s) ev)).
Proof.
  intros f. set (E0 := unknown_event _ _ _). set (P0 := fun m : bytes => exists ev, m = x00 :: ev /\ event_panics crc (p_checksum (s_pv4 s)) (s_validate s) ev). induction f as [|f IH]; intros c L; [lia|]. cbn [next_event_loop]. unfold recv_and_parse_event.
  destruct (recv_cases c) as [(m & d & E)|(d & E)].
  2:{ intros w. unfold ibind. rewrite E. cbn [fst ierr iret ilift]. split; [discriminate|]. intros [_ X]. exfalso. eapply after_none; eassumption. }
  pose proof (recv_next _ _ _ E) as (_ & _ & _ & T).
  assert (No : ~ P0 m -> ~ E0 m -> forall w, w = PArith /\ after_some (arriving c) E0 P0 <-> False).
  { intros N1 N2 w. split; [|contradiction]. intros [_ X]. apply (after_step _ _ _ _ _ E) in X. tauto. }
  intros w. unfold ibind at 1 2. rewrite E. destruct m as [|b m].
  { cbn [fst ierr iret ilift]. rewrite No; [split; [discriminate|contradiction]| |]; intros (ev & X & _); discriminate X. }
  assert (N0 : b2n b <> 0 -> ~ P0 (b :: m) /\ ~ E0 (b :: m)). { intros N. split; intros (ev & X & _); injection X as -> _; apply N; reflexivity. }
  destruct (s_non_block s && (b2n b =? 254)) eqn:Nb.
  { apply andb_true_iff in Nb. destruct Nb as [_ Nb]. apply N.eqb_eq in Nb. destruct (N0 ltac:(lia)) as [N1 N2]. cbn [fst ierr iret ilift]. rewrite (No N1 N2 w). split; [discriminate|contradiction]. }
  destruct (N.eqb_spec (b2n b) 0) as [B|B]; cbn [negb].
  2:{ destruct (N0 B) as [N1 N2]. cbn [fst ierr iret ilift]. rewrite (No N1 N2 w). split; [discriminate|contradiction]. }
  assert (b = x00) as -> by (rewrite <- (n2b_b2n b), B; reflexivity).
  destruct (parse_exact crc (s_pv4 s) (s_validate s) m) as [X Y]. unfold parse, ilift, ibind.
  destruct (fst (parse_event crc (s_pv4 s) (s_validate s) m)) as [[e|]|e|p|] eqn:Ep; [| | | |contradiction].
  - cbn [fst ierr iret ilift]. rewrite No; [split; [discriminate|contradiction]| |].
    + intros (ev & Z & B'). injection Z as <-. assert (Q : Ok (Some e) = @Panic (option event) PArith) by (apply X; auto). discriminate Q.
    + intros (ev & Z & B'). injection Z as <-. congruence.
  - cbn [fst ierr iret ilift]. rewrite (IH d ltac:(lia) w), (after_step _ _ _ _ _ E). split.
    + intros [-> Z]. split; [reflexivity|]. right. split; [|exact Z]. exists m. auto.
    + intros [-> [(ev & Z & B')|[_ Z]]]; [|auto]. injection Z as <-. assert (Q : Ok None = @Panic (option event) PArith) by (apply X; auto). discriminate Q.
  - cbn [fst ierr iret ilift]. rewrite No; [split; [discriminate|contradiction]| |].
    + intros (ev & Z & B'). injection Z as <-. assert (Q : Err e = @Panic (option event) PArith) by (apply X; auto). discriminate Q.
    + intros (ev & Z & B'). injection Z as <-. congruence.
  - destruct (proj1 (X p) eq_refl) as [-> B']. cbn [fst ierr iret ilift]. rewrite (after_step _ _ _ _ _ E). split.
    + intros Z. injection Z as <-. split; [reflexivity|]. left. exists m. auto.
    + intros [-> _]. reflexivity.
Qed.
Lemma event_exactly crc s c : exactly (next_event crc s) c (fun w => w = PArith /\ s_completed s = false /\
  after_some (arriving c) (unknown_event crc (s_pv4 s) (s_validate s)) (fun m => exists ev, m = x00 :: ev /\ event_panics crc (p_checksum (s_pv4 s)) (s_validate s) ev)).
Proof.
  intros w. unfold next_event. destruct (s_completed s) eqn:C.
  - cbn. split; [discriminate|]. intros (_ & X & _). discriminate X.
  - pose proof (rounds_now (fun f => next_event_loop crc f s) c _ (fun f Lf => event_exactly_loop crc s f c Lf) w) as H. cbv beta in H. rewrite H. tauto.
Qed.

(** ** Logging in and changing the user *)
Lemma switch_decodes msg : (exists sw, fst (read_auth_switch msg) = Ok sw) <-> switch_request msg.
Proof.
  split.
  - intros (sw & E). destruct (read_auth_switch msg) as [r rest0] eqn:E0. cbn [fst] in E. subst r. unfold read_auth_switch in E0. apply pbind_inv in E0. destruct E0 as (h & m1 & E1 & E0).
    destruct msg as [|b msg]; [discriminate E1|]. injection E1 as <- <-. destruct (N.eqb_spec (b2n b) 254) as [B|B]; [|discriminate E0]. cbn [negb] in E0.
    apply pbind_inv in E0. destruct E0 as (name & m2 & E1 & E0).
    destruct (position x00 msg) as [pos|] eqn:Po; [|apply position_none in Po; rewrite (read_until_none _ _ _ Po) in E1; discriminate E1].
    apply position_some in Po. destruct Po as (a & rest & -> & _ & N). rewrite (read_until_excl _ _ _ N) in E1. injection E1 as <- <-.
    apply pbind_inv in E0. destruct E0 as (data & m3 & _ & E0). apply pbind_inv in E0. destruct E0 as (nm & m4 & E1 & _). unfold plift in E1. injection E1 as E1 _.
    rewrite from_utf8_cases in E1. destruct (utf8_valid a) eqn:V; [|discriminate E1].
    exists a, rest. split; [|split; [exact N|exact V]]. f_equal. rewrite <- (n2b_b2n b), B. reflexivity.
  - intros (name & data & -> & N & V). unfold read_auth_switch. rewrite (pbind_ok _ _ _ 254 (name ++ x00 :: data)) by reflexivity.
    change (negb (254 =? 254)) with false. cbv beta iota. rewrite (pbind_ok _ _ _ _ _ (read_until_excl x00 name data N)). rewrite (pbind_ok _ _ _ data []) by reflexivity.
    rewrite (pbind_ok _ _ _ name []) by (unfold plift; rewrite from_utf8_cases, V; reflexivity). eexists. reflexivity.
Qed.
Definition more_data (msg : bytes) : Prop := exists data, msg = x01 :: data.
Lemma login_message cap msg :
  (exists data, msg = x01 :: data /\ fst (read_handshake_message cap msg) = Ok (HmMore (mk_more 1 data))) \/
  (switch_request msg /\ exists sw, fst (read_handshake_message cap msg) = Ok (HmSwitch sw)) \/
  (~ more_data msg /\ ~ switch_request msg /\ ((exists e, fst (read_handshake_message cap msg) = Err e) \/
     (exists p, fst (read_handshake_message cap msg) = Ok (HmOk p)) \/ exists p, fst (read_handshake_message cap msg) = Ok (HmErr p))).
Proof.
  unfold read_handshake_message. destruct msg as [|b msg].
  { right. right. split; [intros (x & X); discriminate X|]. split; [intros (x & y & X & _); discriminate X|]. left. eexists. reflexivity. }
  assert (NM : b2n b <> 1 -> ~ more_data (b :: msg)) by (intros H (x & X); injection X as -> _; apply H; reflexivity).
  assert (NS : b2n b <> 254 -> ~ switch_request (b :: msg)) by (intros H (x & y & X & _); injection X as -> _; apply H; reflexivity).
  destruct (N.eqb_spec (b2n b) 0) as [B|B0].
  { right. right. split; [apply NM; lia|]. split; [apply NS; lia|]. unfold pmap, pbind. pose proof (np_ok cap (b :: msg)) as H.
    destruct (read_ok_packet cap (b :: msg)) as [[x|x|x|] r]; cbn [fst] in *; [right; left|left| |]; try (eexists; reflexivity); destruct H as [[? H]|[? H]]; discriminate H. }
  destruct (N.eqb_spec (b2n b) 1) as [B|B1].
  { left. assert (b = x01) as -> by (rewrite <- (n2b_b2n b), B; reflexivity). exists msg. split; reflexivity. }
  destruct (N.eqb_spec (b2n b) 255) as [B|B2].
  { right. right. split; [apply NM; lia|]. split; [apply NS; lia|]. unfold pmap, pbind. pose proof (np_err cap false (b :: msg)) as H.
    destruct (read_err_packet cap false (b :: msg)) as [[x|x|x|] r]; cbn [fst] in *; [right; right|left| |]; try (eexists; reflexivity); destruct H as [[? H]|[? H]]; discriminate H. }
  destruct (N.eqb_spec (b2n b) 254) as [B|B3].
  - pose proof (switch_decodes (b :: msg)) as H. pose proof (np_free _ pf_switch (b :: msg)) as NP. unfold pmap, pbind. destruct (read_auth_switch (b :: msg)) as [[x|x|x|] r]; cbn [fst] in *.
    + right. left. split; [apply H; eauto|]. eexists. reflexivity.
    + right. right. split; [apply NM; lia|]. split; [|left; eexists; reflexivity]. intros S1. apply H in S1. destruct S1 as (? & X). discriminate X.
    + destruct NP as [[? X]|[? X]]; discriminate X.
    + destruct NP as [[? X]|[? X]]; discriminate X.
  - right. right. split; [apply NM; lia|]. split; [apply NS; lia|]. left. eexists. reflexivity.
Qed.
Lemma user_message cap msg :
  (exists data, msg = x01 :: data /\ fst (read_change_user_response cap msg) = Ok (CuMore (mk_more 1 data))) \/
  (~ more_data msg /\ ((exists e, fst (read_change_user_response cap msg) = Err e) \/ (exists p, fst (read_change_user_response cap msg) = Ok p /\ forall m, p <> CuMore m))).
Proof.
  unfold read_change_user_response. destruct msg as [|b msg].
  { right. split; [intros (x & X); discriminate X|]. left. eexists. reflexivity. }
  assert (NM : b2n b <> 1 -> ~ more_data (b :: msg)) by (intros H (x & X); injection X as -> _; apply H; reflexivity).
  destruct (N.eqb_spec (b2n b) 255) as [B|B2].
  { right. split; [apply NM; lia|]. unfold pmap, pbind. pose proof (np_err cap true (b :: msg)) as H.
    destruct (read_err_packet cap true (b :: msg)) as [[x|x|x|] r]; cbn [fst] in *; [right|left| |]; try (eexists; reflexivity); try (destruct H as [[? H]|[? H]]; discriminate H). eexists. split; [reflexivity|discriminate]. }
  destruct (N.eqb_spec (b2n b) 0) as [B|B0].
  { right. split; [apply NM; lia|]. unfold pmap, pbind. pose proof (np_ok cap (b :: msg)) as H.
    destruct (read_ok_packet cap (b :: msg)) as [[x|x|x|] r]; cbn [fst] in *; [right|left| |]; try (eexists; reflexivity); try (destruct H as [[? H]|[? H]]; discriminate H). eexists. split; [reflexivity|discriminate]. }
  destruct (N.eqb_spec (b2n b) 1) as [B|B1].
  { left. assert (b = x01) as -> by (rewrite <- (n2b_b2n b), B; reflexivity). exists msg. split; reflexivity. }
  destruct (N.eqb_spec (b2n b) 254) as [B|B3].
  - right. split; [apply NM; lia|]. pose proof (np_free _ pf_switch (b :: msg)) as NP. unfold pmap, pbind. destruct (read_auth_switch (b :: msg)) as [[x|x|x|] r]; cbn [fst] in *.
    + right. eexists. split; [reflexivity|discriminate].
    + left. eexists. reflexivity.
    + destruct NP as [[? X]|[? X]]; discriminate X.
    + destruct NP as [[? X]|[? X]]; discriminate X.
  - right. split; [apply NM; lia|]. left. eexists. reflexivity.
Qed.

Section Login.
  Variable sha1 sha256 : bytes -> bytes.
  (** the messages that a method takes *)
  Fixpoint takes (p : auth_plugin) (msgs : list bytes) : Prop :=
    match msgs with
    | [] => True
    | m :: l => exists data, m = x01 :: data /\ exists resp, fst (auth_next sha1 sha256 p data) = Ok resp /\ takes (snd (auth_next sha1 sha256 p data)) l
    end.
  Definition switched (bs : bytes) (p : auth_plugin) : Prop := exists earlier msg, takes p earlier /\ follow bs earlier msg /\ switch_request msg.
  Lemma not_both msg : more_data msg -> switch_request msg -> False.
  Proof. intros (x & ->) (a & b & X & _). discriminate X. Qed.
  Lemma switched_step p c m d : recv_msg c = (Ok m, d) -> (switched (arriving c) p <-> switch_request m \/
    exists data resp, m = x01 :: data /\ fst (auth_next sha1 sha256 p data) = Ok resp /\ switched (arriving d) (snd (auth_next sha1 sha256 p data))).
  Proof.
    intros R. split.
    - intros (earlier & msg & T & Fo & H). destruct earlier as [|x l].
      + apply (follow_one _ _ _ _ R) in Fo. subst. auto.
      + pose proof (follow_first _ _ _ _ _ _ R Fo) as ->. apply (follow_later _ _ _ _ _ R) in Fo. destruct T as (data & -> & resp & A & T). right. exists data, resp.
        split; [reflexivity|]. split; [exact A|]. exists l, msg. auto.
    - intros [H|(data & resp & -> & A & l & msg & T & Fo & Hm)].
      + exists [], m. split; [exact I|]. split; [apply (follow_one _ _ _ _ R); reflexivity|exact H].
      + exists ((x01 :: data) :: l), msg. split; [exists data; split; [reflexivity|]; exists resp; auto|]. split; [apply (follow_later _ _ _ _ _ R); exact Fo|exact Hm].
  Qed.
  Lemma switched_none p c e d : recv_msg c = (Err e, d) -> ~ switched (arriving c) p.
  Proof. intros R (l & msg & _ & F & _). eapply follow_none; eassumption. Qed.
  Lemma login_loop_exactly cap : forall f p c, quiet p -> accepting (c_ws c) -> (length (arriving c) < f)%nat ->
    exactly (handshake_loop sha1 sha256 false cap f p) c (fun w => w = PUnimplemented /\ switched (arriving c) p).
  Proof.
    induction f as [|f IH]; intros p c Q Ac L; [lia|]. cbn [handshake_loop]. apply exactly_recv; [|intros e d E w [_ X]; eapply switched_none; eassumption].
    intros m d E. pose proof (recv_next _ _ _ E) as (Ad & Nd & _ & T). specialize (Ad Ac). destruct (login_message cap m) as [(data & -> & Em)|[[Sw (sw & Em)]|(NM & NS & Em)]].
    - rewrite Em. eapply exactly_bind; [reflexivity|]. cbn [am_data]. pose proof (auth_quiet sha1 sha256 p data Q) as X. pose proof (switched_step p c _ d E) as St.
      destruct (auth_next sha1 sha256 p data) as [r p'] eqn:Ea. destruct X as (R & Q' & _).
      destruct R as [[resp ->]|[e ->]].
      + eapply exactly_bind; [reflexivity|].
        assert (Go : forall d', arriving d' = arriving d -> accepting (c_ws d') -> exactly (handshake_loop sha1 sha256 false cap f p') d' (fun w => w = PUnimplemented /\ switched (arriving c) p)).
        { intros d' A A'. eapply exactly_iff; [|apply IH; [exact Q'|exact A'|rewrite A; lia]]. intros w. cbv beta. rewrite St, A. split.
          - intros [-> X]. split; [reflexivity|]. right. exists data, resp. rewrite Ea. auto.
          - intros [-> [X|(dt & rp & X & _ & Y)]]; [exfalso; eapply not_both; [eexists; reflexivity|exact X]|]. injection X as <-. rewrite Ea in Y. auto. }
        destruct resp as [|b resp].
        * eapply exactly_bind; [reflexivity|]. apply Go; auto.
        * apply exactly_reply; auto.
      + eapply exactly_at; [reflexivity|]. intros w. split; [discriminate|]. intros [_ X]. apply St in X. destruct X as [X|(dt & rp & X & Y & _)].
        * exfalso. eapply not_both; [eexists; reflexivity|exact X].
        * injection X as <-. rewrite Ea in Y. discriminate Y.
    - rewrite Em. eapply exactly_bind; [reflexivity|]. eapply exactly_at; [reflexivity|]. intros w. rewrite (switched_step p c _ d E). split; [intros X; injection X as <-; auto|intros [-> _]; reflexivity].
    - assert (No : forall w, w = PUnimplemented /\ switched (arriving c) p <-> False).
      { intros w. split; [|contradiction]. intros [_ X]. apply (switched_step p c _ d E) in X. destruct X as [X|(dt & rp & X & _)]; [auto|]. apply NM. eexists. exact X. }
      destruct Em as [(e & Em)|[(ok & Em)|(er & Em)]]; rewrite Em.
      + eapply exactly_at; [reflexivity|]. intros w. rewrite No. split; [discriminate|contradiction].
      + eapply exactly_at; [reflexivity|]. intros w. rewrite No. split; [discriminate|contradiction].
      + eapply exactly_at; [reflexivity|]. intros w. rewrite No. split; [discriminate|contradiction].
  Qed.
  (** the messages taken after the response to the greeting *)
  Lemma takes_all p : (match p with Native _ => True | Sha2 pw _ _ _ => pw = [] end) -> forall msgs, takes p msgs <-> Forall more_data msgs.
  Proof.
    intros H msgs. induction msgs as [|m l IH]; [split; [constructor|intros _; exact I]|]. cbn [takes]. split.
    - intros (data & -> & resp & _ & T). constructor; [eexists; reflexivity|]. apply IH. destruct p as [[|x pw]|pw seed st ssl]; [exact T|exact T|]. subst pw. exact T.
    - intros F. inversion F as [|x y (data & ->) F']; subst. apply IH in F'. exists data. split; [reflexivity|]. destruct p as [[|x pw]|pw seed st ssl]; [eexists; split; [reflexivity|exact F']..|].
      subst pw. eexists. split; [reflexivity|exact F'].
  Qed.
  Lemma takes_once x pw seed msgs : takes (Sha2 (x :: pw) seed FastAuthReadResult false) msgs <-> msgs = [] \/ exists data, msgs = [x01 :: x03 :: data].
  Proof.
    destruct msgs as [|m l]; [split; [auto|intros _; exact I]|]. cbn [takes auth_next]. split.
    - intros (data & -> & resp & A & T). right. destruct data as [|b data]; [discriminate A|]. destruct (N.eqb_spec (b2n b) 3) as [B|B].
      + exists data. rewrite <- (n2b_b2n b), B. destruct l as [|m l]; [reflexivity|]. cbn [snd takes auth_next] in T. destruct T as (dt & _ & rp & X & _). discriminate X.
      + destruct (b2n b =? 4); discriminate A.
    - intros [X|(data & X)]; [discriminate X|]. injection X as -> ->. exists (x03 :: data). split; [reflexivity|]. change (b2n x03 =? 3) with true. cbv iota. eexists. split; [reflexivity|exact I].
  Qed.
  Lemma login_exactly opts c : accepting (c_ws c) -> exactly (handshake sha1 sha256 false opts) c (fun w =>
    (w = PArith /\ exists greeting, follow (arriving c) [] greeting /\ short_auth_data greeting) \/
    (w = PUnimplemented /\ exists greeting hs earlier msg, fst (read_initial_handshake greeting) = Ok hs /\ lets_pass (hs_plugin hs) (o_password opts) earlier /\
       follow (arriving c) (greeting :: earlier) msg /\ switch_request msg)).
  Proof.
    intros Ac. unfold handshake. apply exactly_recv.
    2:{ intros e d E w [[_ (g & F & _)]|[_ (g & hs & l & m & _ & _ & F & _)]]; eapply follow_none; eassumption. }
    intros m d E. pose proof (recv_next _ _ _ E) as (Ad & Nd & _ & T). specialize (Ad Ac). destruct (greeting_exact m) as [X Y].
    assert (Short : forall w, (w = PArith /\ exists greeting, follow (arriving c) [] greeting /\ short_auth_data greeting) <-> fst (read_initial_handshake m) = Panic w).
    { intros w. rewrite (X w). split.
      - intros (-> & g & F & H). apply (follow_one _ _ _ _ E) in F. subst. auto.
      - intros [-> H]. split; [reflexivity|]. exists m. split; [apply (follow_one _ _ _ _ E); reflexivity|exact H]. }
    destruct (fst (read_initial_handshake m)) as [hs|e|p|] eqn:Eh; [| | |contradiction].
    - eapply exactly_bind; [reflexivity|]. cbv zeta. eapply exactly_bind; [reflexivity|].
      assert (Later : forall w, ((w = PArith /\ exists greeting, follow (arriving c) [] greeting /\ short_auth_data greeting) \/
        (w = PUnimplemented /\ exists greeting hs earlier msg, fst (read_initial_handshake greeting) = Ok hs /\ lets_pass (hs_plugin hs) (o_password opts) earlier /\
          follow (arriving c) (greeting :: earlier) msg /\ switch_request msg)) <-> w = PUnimplemented /\ exists earlier msg, lets_pass (hs_plugin hs) (o_password opts) earlier /\ follow (arriving d) earlier msg /\ switch_request msg).
      { intros w. rewrite Short. split.
        - intros [Z|(-> & g & h & l & msg & Eg & Lp & F & S1)]; [discriminate Z|]. split; [reflexivity|]. pose proof (follow_first _ _ _ _ _ _ E F) as ->. rewrite Eh in Eg. injection Eg as ->.
          apply (follow_later _ _ _ _ _ E) in F. exists l, msg. auto.
        - intros (-> & l & msg & Lp & F & S1). right. split; [reflexivity|]. exists m, hs, l, msg. split; [exact Eh|]. split; [exact Lp|]. split; [apply (follow_later _ _ _ _ _ E); exact F|exact S1]. }
      eapply exactly_iff; [intros w; symmetry; apply Later|]. clear Later Short X Y.
      assert (Go : forall p auth, quiet p -> (forall l, takes p l <-> lets_pass (hs_plugin hs) (o_password opts) l) -> exactly (_ <~ (match o_database opts with [] => iret tt | _ => fun c => (Ok tt, set_cap c (insert (c_cap c) CONNECT_WITH_DB)) end) ;;
        fun c => let cap := c_cap c in let resp := mk_hr cap 0xffffff 33 (o_username opts) auth (o_database opts) (hs_plugin hs) [] in
          (_ <~ send_msg false (write_handshake_response resp) false ;; fun c => handshake_loop sha1 sha256 false cap (S (sched_len (c_rd c))) p c) c) (set_cap d (login_caps (c_cap d)))
        (fun w => w = PUnimplemented /\ exists earlier msg, lets_pass (hs_plugin hs) (o_password opts) earlier /\ follow (arriving d) earlier msg /\ switch_request msg)).
      { intros p auth Q Tk. assert (Gd : forall d', arriving d' = arriving d -> c_ws d' = c_ws d -> c_pkt_nr d' = c_pkt_nr d -> exactly (fun c => let cap := c_cap c in let resp := mk_hr cap 0xffffff 33 (o_username opts) auth (o_database opts) (hs_plugin hs) [] in
          (_ <~ send_msg false (write_handshake_response resp) false ;; fun c => handshake_loop sha1 sha256 false cap (S (sched_len (c_rd c))) p c) c) d'
          (fun w => w = PUnimplemented /\ exists earlier msg, lets_pass (hs_plugin hs) (o_password opts) earlier /\ follow (arriving d) earlier msg /\ switch_request msg)).
        { intros d' A W N. unfold exactly. cbv zeta. match goal with |- forall w, fst (ibind ?s ?k d') = _ <-> _ => change (exactly (ibind s k) d' (fun w => w = PUnimplemented /\ exists earlier msg, lets_pass (hs_plugin hs) (o_password opts) earlier /\ follow (arriving d) earlier msg /\ switch_request msg)) end.
          apply exactly_reply; [rewrite W; exact Ad|rewrite N; exact Nd|]. intros d2 A2 Ac2. apply (rounds_now (fun f => handshake_loop sha1 sha256 false (c_cap d') f p)). intros f Lf.
          eapply exactly_iff; [|apply login_loop_exactly; [exact Q|exact Ac2|exact Lf]]. intros w. cbv beta. unfold switched. rewrite A2, A. split.
          - intros (-> & l & msg & Tl & R). split; [reflexivity|]. exists l, msg. split; [apply Tk; exact Tl|exact R].
          - intros (-> & l & msg & Tl & R). split; [reflexivity|]. exists l, msg. split; [apply Tk; exact Tl|exact R]. }
        destruct (o_database opts) as [|x db]; (eapply exactly_bind; [reflexivity|]); apply Gd; reflexivity. }
      unfold new_auth_plugin. destruct (beqb_spec (hs_plugin hs) (str "mysql_native_password")) as [Pl|Pl]; [|destruct (beqb_spec (hs_plugin hs) (str "caching_sha2_password")) as [Pl2|Pl2]].
      + eapply exactly_bind; [reflexivity|]. unfold gen_init_auth_resp, set_credential.
        assert (Tk : forall l, takes (Native (o_password opts)) l <-> lets_pass (hs_plugin hs) (o_password opts) l).
        { intros l. rewrite takes_all by exact I. unfold lets_pass. rewrite Pl. split; [intros F; left; auto|]. intros [[_ F]|(Z & _)]; [exact F|discriminate Z]. }
        cbn [auth_next]. destruct (o_password opts) as [|x pw] eqn:Pw; (eapply exactly_bind; [reflexivity|]); apply Go; auto; exact I.
      + eapply exactly_bind; [reflexivity|]. unfold gen_init_auth_resp, set_credential. cbn [auth_next]. destruct (o_password opts) as [|x pw] eqn:Pw.
        * eapply exactly_bind; [reflexivity|]. apply Go; [reflexivity|]. intros l. rewrite takes_all by reflexivity. unfold lets_pass. split; [intros F; left; auto|]. intros [[_ F]|(_ & Z & _)]; [exact F|contradiction].
        * eapply exactly_bind; [reflexivity|]. apply Go; [reflexivity|]. intros l. rewrite takes_once. unfold lets_pass. split.
          -- intros F. right. split; [exact Pl2|]. split; [discriminate|exact F].
          -- intros [[[Z|[_ Z]] _]|(_ & _ & F)]; [contradiction|discriminate Z|exact F].
      + eapply exactly_at; [reflexivity|]. intros w. split; [discriminate|]. intros (_ & l & msg & [[[Z|[Z _]] _]|(Z & _)] & _); contradiction.
    - eapply exactly_at; [reflexivity|]. intros w. rewrite Short. split; [discriminate|]. intros [Z|(-> & g & h & l & msg & Eg & _ & F & _)]; [discriminate Z|].
      pose proof (follow_first _ _ _ _ _ _ E F) as ->. congruence.
    - eapply exactly_at; [reflexivity|]. intros w. rewrite Short. split; [intros Z; injection Z as ->; left; reflexivity|]. intros [Z|(-> & g & h & l & msg & Eg & _ & F & _)]; [injection Z as ->; reflexivity|].
      pose proof (follow_first _ _ _ _ _ _ E F) as ->. congruence.
  Qed.

  Lemma user_loop_exactly pw : forall f p c, match p with Some p => quiet p | None => True end -> accepting (c_ws c) -> (length (arriving c) < f)%nat ->
    exactly (change_user_loop sha1 sha256 false pw f p) c (fun w => w = PUnwrap /\ p = None /\ exists data, follow (arriving c) [] (x01 :: data)).
  Proof.
    induction f as [|f IH]; intros p c Q Ac L; [lia|]. cbn [change_user_loop]. apply exactly_recv; [|intros e d E w (_ & _ & data & F); eapply follow_none; eassumption].
    intros m d E. pose proof (recv_next _ _ _ E) as (Ad & Nd & _ & T). specialize (Ad Ac).
    assert (Re : forall q resp (P : panic -> Prop), quiet q -> (forall w, ~ P w) -> exactly (_ <~ send_msg false resp false ;; change_user_loop sha1 sha256 false pw f (Some q)) d P).
    { intros q resp P Qq N. apply exactly_reply; [exact Ad|exact Nd|]. intros d' A A'. eapply exactly_iff; [|apply IH; [exact Qq|exact A'|rewrite A; lia]].
      intros w. split; [intros (_ & X & _); discriminate X|]. intros X. destruct (N w X). }
    destruct (user_message (c_cap d) m) as [(data & -> & Em)|(NM & Em)].
    - apply (exactly_bind (parse (read_change_user_response (c_cap d)) (x01 :: data)) _ d (CuMore (mk_more 1 data)) d); [unfold parse, ilift; rewrite Em; reflexivity|]. cbv beta iota. destruct p as [p|].
      + cbn [am_data]. pose proof (auth_quiet sha1 sha256 p data Q) as X. destruct (auth_next sha1 sha256 p data) as [r p']. destruct X as (R & Q' & _).
        destruct R as [[resp ->]|[e ->]].
        * eapply exactly_bind; [reflexivity|]. apply Re; [exact Q'|]. intros w (_ & X & _). discriminate X.
        * eapply exactly_at; [reflexivity|]. intros w. split; [discriminate|]. intros (_ & X & _). discriminate X.
      + eapply exactly_at; [reflexivity|]. intros w. split; [intros X; injection X as <-; split; [reflexivity|]; split; [reflexivity|]; exists data; apply (follow_one _ _ _ _ E); reflexivity|intros (-> & _); reflexivity].
    - assert (No : forall w, ~ (w = PUnwrap /\ p = None /\ exists data, follow (arriving c) [] (x01 :: data))).
      { intros w (_ & _ & data & F). apply (follow_one _ _ _ _ E) in F. apply NM. exists data. symmetry. exact F. }
      destruct Em as [(e & Em)|(r & Em & Nr)].
      + eapply exactly_at; [unfold ibind, parse, ilift; rewrite Em; reflexivity|]. intros w. split; [discriminate|]. intros X. destruct (No w X).
      + apply (exactly_bind (parse (read_change_user_response (c_cap d)) m) _ d r d); [unfold parse, ilift; rewrite Em; reflexivity|]. destruct r as [err|sw|ok|more].
        * eapply exactly_at; [reflexivity|]. intros w. split; [discriminate|]. intros X. destruct (No w X).
        * pose proof (plugin_cases (sw_plugin sw)) as Pc. destruct (new_auth_plugin (sw_plugin sw)) as [q|e|x|]; try contradiction.
          2:{ eapply exactly_at; [reflexivity|]. intros w. split; [discriminate|]. intros X. destruct (No w X). }
          destruct Pc as [Qq _]. eapply exactly_bind; [reflexivity|]. unfold gen_init_auth_resp.
          match goal with |- context [auth_next sha1 sha256 ?q ?i] => pose proof (auth_quiet sha1 sha256 q i (set_quiet _ _ Qq)) as X; destruct (auth_next sha1 sha256 q i) as [r p'] end.
          destruct X as (R & Q' & _). destruct R as [[resp ->]|[e ->]].
          -- eapply exactly_bind; [reflexivity|]. apply Re; [exact Q'|exact No].
          -- eapply exactly_at; [reflexivity|]. intros w. split; [discriminate|]. intros X. destruct (No w X).
        * eapply exactly_at; [reflexivity|]. intros w. split; [discriminate|]. intros X. destruct (No w X).
        * contradiction (Nr more). reflexivity.
  Qed.
  Lemma change_user_exactly user pw db attrs c : accepting (c_ws c) ->
    exactly (conn_change_user sha1 sha256 false user pw db attrs) c (fun w => w = PUnwrap /\ exists data, follow (arriving c) [] (x01 :: data)).
  Proof.
    intros Ac. unfold conn_change_user. set (req := new_change_user _ _ _ _ _). apply (exactly_sent false (write_change_user (c_cap c) req) (fun _ c => change_user_loop sha1 sha256 false pw (S (sched_len (c_rd c))) None c)); [exact Ac|left; reflexivity|].
    intros d A Ad. apply (rounds_now (fun f => change_user_loop sha1 sha256 false pw f None)). intros f Lf. eapply exactly_iff; [|apply user_loop_exactly; [exact I|exact Ad|exact Lf]]. intros w. cbv beta. rewrite A. tauto.
  Qed.
End Login.
