(** * Programs depend on the bytes that arrive, not on how they arrive *)
From Coq Require Import Strings.String.
From Coq Require Import List NArith ZArith Lia Arith Bool.
From Verif Require Import Model.Base Model.BytesParser Model.Conn Model.Flags Model.Packet Model.Auth Model.Cmd Model.Col Model.Stmt Model.Extract
  Model.Session Model.Event Model.Stream Spec.Framing Spec.Programs Proofs.ConnProofs.
Import ListNotations.
Open Scope N_scope.

(** [x]: the run with fewer bytes; [y]: the run where [ext] follows them *)
Definition agree {A} (ext : bytes) (x y : res A * conn) : Prop :=
  (fst x = fst y /\ alike (snd x) (snd y) /\ arriving (snd y) = arriving (snd x) ++ ext) \/
  (fst x = Err EIO /\ accepting (c_ws (snd x)) /\ (ext = [] -> fst y = Err EIO /\ alike (snd x) (snd y))).
Definition follows (ext : bytes) (c1 c2 : conn) : Prop := alike c1 c2 /\ arriving c2 = arriving c1 ++ ext.
Definition steady {A} (m : io A) : Prop := forall ext c1 c2, follows ext c1 c2 -> agree ext (m c1) (m c2).

Lemma agree_ok {A} ext (r : res A) c1 c2 : follows ext c1 c2 -> agree ext (r, c1) (r, c2).
Proof. intros [H1 H2]. left. auto. Qed.
Lemma agree_bind {A B} ext (m m' : io A) (f f' : A -> io B) c1 c2 : agree ext (m c1) (m' c2) ->
  (forall a d1 d2, m c1 = (Ok a, d1) -> m' c2 = (Ok a, d2) -> follows ext d1 d2 -> agree ext (f a d1) (f' a d2)) ->
  agree ext (ibind m f c1) (ibind m' f' c2).
Proof.
  intros H K. unfold ibind. destruct (m c1) as [r1 d1] eqn:E1, (m' c2) as [r2 d2] eqn:E2. destruct H as [(H1 & H2 & H3)|(H1 & H0 & H2)]; cbn [fst snd] in *.
  - subst r2. destruct r1 as [a|e|p|]; try (left; cbn [fst snd]; auto; fail). apply K; [reflexivity|reflexivity|split; assumption].
  - subst r1. right. split; [reflexivity|]. split; [exact H0|]. intros He. destruct (H2 He) as [-> H]. auto.
Qed.
Lemma steady_bind {A B} (m : io A) (f : A -> io B) : steady m -> (forall a, steady (f a)) -> steady (ibind m f).
Proof. intros H K ext c1 c2 F. apply agree_bind; [apply H; exact F|]. intros a d1 d2 _ _ F'. apply K. exact F'. Qed.
Lemma steady_lift {A} (r : res A) : steady (ilift r).
Proof. intros ext c1 c2 F. apply agree_ok. exact F. Qed.
Lemma steady_ret {A} (a : A) : steady (iret a). Proof. apply (steady_lift (Ok a)). Qed.
Lemma steady_err {A} e : steady (ierr (A := A) e). Proof. apply (steady_lift (Err e)). Qed.
Lemma steady_panic {A} e : steady (ipanic (A := A) e). Proof. apply (steady_lift (Panic e)). Qed.
(** a step that looks at the settings only *)
Lemma steady_cap {A} (f : N -> io A) : (forall n, steady (f n)) -> steady (fun c => f (c_cap c) c).
Proof. intros H ext c1 c2 F. destruct (proj1 F) as (E & _). rewrite E. apply H. exact F. Qed.
Lemma steady_nr {A} (f : N -> io A) : (forall n, steady (f n)) -> steady (fun c => f (c_pkt_nr c) c).
Proof. intros H ext c1 c2 F. destruct (proj1 F) as (_ & _ & E & _). rewrite E. apply H. exact F. Qed.
Ltac alikes := match goal with H : follows _ _ _ |- _ => destruct H as [(? & ? & ? & ? & ? & ?) ?] end;
  unfold alike, arriving, set_cap, set_status, set_pkt_nr, set_rd, set_wr in *; cbn [c_cap c_status c_pkt_nr c_out c_ws c_rd] in *.
Lemma steady_set_nr n : steady (fun c => (Ok tt, set_pkt_nr c n)).
Proof. intros ext c1 c2 F. apply agree_ok. alikes. split; [unfold alike; cbn; auto 10|]. unfold arriving. cbn. assumption. Qed.
Lemma steady_set_status n : steady (fun c => (Ok tt, set_status c n)).
Proof. intros ext c1 c2 F. apply agree_ok. alikes. split; [unfold alike; cbn; auto 10|]. unfold arriving. cbn. assumption. Qed.
Lemma steady_set_cap n : steady (fun c => (Ok tt, set_cap c n)).
Proof. intros ext c1 c2 F. apply agree_ok. alikes. split; [unfold alike; cbn; auto 10|]. unfold arriving. cbn. assumption. Qed.
Lemma steady_reset : steady reset_pkt_nr. Proof. apply (steady_set_nr 0). Qed.

Lemma steady_read k : steady (io_read_exact k).
Proof.
  intros ext c1 c2 F. destruct (Nat.ltb_spec (length (arriving c1)) k) as [L|L].
  - right. destruct (io_read_exact_short c1 k L) as (s1 & E1). rewrite E1. split; [reflexivity|].
    split; [destruct F as [(_ & _ & _ & _ & A1 & _) _]; exact A1|]. intros ->. destruct F as [Al D]. rewrite app_nil_r in D. destruct (io_read_exact_short c2 k) as (s2 & E2); [fold (arriving c2); rewrite D; exact L|].
    rewrite E2. split; [reflexivity|]. exact Al.
  - pose proof (firstn_skipn k (arriving c1)) as Sp. destruct F as [Al D].
    destruct (io_read_exact_ok c1 k (firstn k (arriving c1)) (skipn k (arriving c1))) as (s1 & E1 & D1 & _);
      [rewrite firstn_length; lia|symmetry; exact Sp|].
    destruct (io_read_exact_ok c2 k (firstn k (arriving c1)) (skipn k (arriving c1) ++ ext)) as (s2 & E2 & D2 & _);
      [rewrite firstn_length; lia|fold (arriving c2); rewrite D, app_assoc, Sp; reflexivity|].
    rewrite E1, E2. left. split; [reflexivity|]. split; [exact Al|]. unfold arriving. cbn [snd set_rd c_rd]. rewrite D1, D2. reflexivity.
Qed.
Lemma steady_write bs : steady (io_write_all bs).
Proof.
  intros ext c1 c2 F. destruct F as [(E1 & E2 & E3 & E4 & A1 & A2) D].
  destruct (io_write_ok c1 bs A1) as (s1 & W1 & B1). destruct (io_write_ok c2 bs A2) as (s2 & W2 & B2). rewrite W1, W2.
  left. split; [reflexivity|]. split; [|exact D]. unfold alike. cbn. rewrite E4. auto 10.
Qed.
Lemma steady_inc checks : steady (inc_pkt_nr checks).
Proof.
  unfold inc_pkt_nr. apply (steady_nr (fun n c => if n =? 255 then if checks then (Panic PArith, c) else (Ok tt, set_pkt_nr c 0) else (Ok tt, set_pkt_nr c (n + 1)))).
  intros n. destruct (n =? 255); [destruct checks|]; [apply (steady_panic PArith)|apply steady_set_nr|apply steady_set_nr].
Qed.
Lemma steady_packet checks p : steady (send_packet checks p).
Proof.
  unfold send_packet. cbv zeta. apply steady_bind; [apply steady_write|]. intros _.
  apply steady_bind; [apply (steady_nr (fun n => io_write_all [n2b n])); intros; apply steady_write|]. intros _.
  apply steady_bind; [apply steady_write|]. intros _. apply steady_inc.
Qed.
Lemma steady_send_loop checks fuel : forall bs, steady (send_loop checks fuel bs).
Proof.
  induction fuel as [|fuel IH]; intros bs; cbn [send_loop]; [apply steady_lift|].
  destruct (max_payload <=? blen bs); [|apply steady_packet]. apply steady_bind; [apply steady_packet|]. intros _. apply IH.
Qed.
Lemma steady_send checks msg reset : steady (send_msg checks msg reset).
Proof.
  unfold send_msg. apply steady_bind; [destruct reset; [apply steady_reset|apply steady_ret]|]. intros _. apply steady_send_loop.
Qed.

(** sending looks at nothing that arrives *)
Definition blind {A} (m : io A) : Prop := forall c1 c2, alike c1 c2 -> fst (m c1) = fst (m c2) /\ alike (snd (m c1)) (snd (m c2)).
Lemma blind_bind {A B} (m : io A) (f : A -> io B) : blind m -> (forall a, blind (f a)) -> blind (ibind m f).
Proof.
  intros H K c1 c2 Al. specialize (H c1 c2 Al). unfold ibind. destruct (m c1) as [[a|e|p|] d1], (m c2) as [[a'|e'|p'|] d2]; cbn [fst snd] in *;
    destruct H as [H1 H2]; try discriminate H1; try (split; [congruence|exact H2]).
  injection H1 as <-. apply K. exact H2.
Qed.
Lemma blind_same {A} (r : res A) : blind (fun c => (r, c)). Proof. intros c1 c2 Al. auto. Qed.
Lemma blind_set_nr n : blind (fun c => (Ok tt, set_pkt_nr c n)).
Proof. intros c1 c2 (H1 & H2 & H3 & H4 & H5 & H6). split; [reflexivity|]. unfold alike. cbn. auto 10. Qed.
Lemma blind_nr {A} (f : N -> io A) : (forall n, blind (f n)) -> blind (fun c => f (c_pkt_nr c) c).
Proof. intros H c1 c2 Al. pose proof Al as (_ & _ & E & _). rewrite E. apply H. exact Al. Qed.
Lemma blind_write bs : blind (io_write_all bs).
Proof.
  intros c1 c2 (E1 & E2 & E3 & E4 & A1 & A2).
  destruct (io_write_ok c1 bs A1) as (s1 & W1 & B1). destruct (io_write_ok c2 bs A2) as (s2 & W2 & B2). rewrite W1, W2.
  split; [reflexivity|]. unfold alike. cbn. rewrite E4. auto 10.
Qed.
Lemma blind_inc checks : blind (inc_pkt_nr checks).
Proof.
  unfold inc_pkt_nr. apply (blind_nr (fun n c => if n =? 255 then if checks then (Panic PArith, c) else (Ok tt, set_pkt_nr c 0) else (Ok tt, set_pkt_nr c (n + 1)))).
  intros n. destruct (n =? 255); [destruct checks|]; [apply blind_same|apply blind_set_nr|apply blind_set_nr].
Qed.
Lemma blind_packet checks p : blind (send_packet checks p).
Proof.
  unfold send_packet. cbv zeta. apply blind_bind; [apply blind_write|]. intros _.
  apply blind_bind; [apply (blind_nr (fun n => io_write_all [n2b n])); intros; apply blind_write|]. intros _.
  apply blind_bind; [apply blind_write|]. intros _. apply blind_inc.
Qed.
Lemma blind_send_loop checks fuel : forall bs, blind (send_loop checks fuel bs).
Proof.
  induction fuel as [|fuel IH]; intros bs; cbn [send_loop]; [apply blind_same|].
  destruct (max_payload <=? blen bs); [|apply blind_packet]. apply blind_bind; [apply blind_packet|]. intros _. apply IH.
Qed.
Lemma send_out checks msg reset : blind (send_msg checks msg reset).
Proof.
  unfold send_msg. apply blind_bind; [destruct reset; [apply (blind_set_nr 0)|apply blind_same]|]. intros _. apply blind_send_loop.
Qed.

(** ** Receiving: every message takes bytes off the stream *)
Lemma read_takes k c a c' : io_read_exact k c = (Ok a, c') -> (length (arriving c') + k = length (arriving c))%nat.
Proof.
  intros E. destruct (Nat.ltb_spec (length (arriving c)) k) as [L|L].
  - destruct (io_read_exact_short c k L) as (s & E'). congruence.
  - pose proof (firstn_skipn k (arriving c)) as Sp.
    destruct (io_read_exact_ok c k (firstn k (arriving c)) (skipn k (arriving c))) as (s & E' & D & _);
      [rewrite firstn_length; lia|symmetry; exact Sp|].
    rewrite E' in E. injection E as _ <-. unfold arriving at 1. cbn [set_rd c_rd]. rewrite D, skipn_length. lia.
Qed.
Lemma recv_loop_agree f1 : forall f2 bs ext c1 c2, follows ext c1 c2 -> (length (arriving c1) < f1)%nat -> (length (arriving c2) < f2)%nat ->
  agree ext (recv_loop f1 bs c1) (recv_loop f2 bs c2).
Proof.
  induction f1 as [|f1 IH]; intros f2 bs ext c1 c2 F L1 L2; [lia|]. destruct f2 as [|f2]; [lia|]. cbn [recv_loop].
  apply agree_bind; [apply steady_read; exact F|]. intros l d1 d2 R1 R2 F1. apply read_takes in R1. apply read_takes in R2. cbv zeta.
  set (len := match l with [l0; l1; l2] => b2n l0 + N.shiftl (b2n l1) 8 + N.shiftl (b2n l2) 16 | _ => 0 end). clearbody len.
  apply agree_bind; [apply steady_read; exact F1|]. intros s e1 e2 S1 S2 F2. apply read_takes in S1. apply read_takes in S2.
  apply agree_bind; [apply (steady_set_nr _); exact F2|]. intros [] g1 g2 G1 G2 F3. injection G1 as <-. injection G2 as <-.
  apply agree_bind; [apply steady_read; exact F3|]. intros p h1 h2 P1 P2 F4. apply read_takes in P1. apply read_takes in P2.
  unfold arriving at 2 in P1. unfold arriving at 2 in P2. cbn [set_pkt_nr c_rd] in P1, P2. unfold arriving in *.
  destruct (len <? max_payload); [apply steady_ret; exact F4|]. apply IH; [exact F4|unfold arriving; lia..].
Qed.
Lemma arriving_le c : (length (arriving c) <= sched_len (c_rd c))%nat.
Proof.
  unfold arriving. induction (c_rd c) as [|[|[|b bs]|] l IH]; cbn [delivered sched_len length]; try lia.
  change (length ((b :: bs) ++ delivered l) <= length (b :: bs) + sched_len l)%nat. rewrite app_length. lia.
Qed.
Lemma steady_recv : steady recv_msg.
Proof.
  intros ext c1 c2 F. unfold recv_msg. pose proof (arriving_le c1). pose proof (arriving_le c2). apply recv_loop_agree; [exact F|lia..].
Qed.
Lemma recv_takes c m c' : recv_msg c = (Ok m, c') -> (length (arriving c') < length (arriving c))%nat.
Proof.
  intros E. destruct (recv_msg_total c) as [(seqs & p & w & rest & c2 & E2 & W & D & D2)|(c2 & E2)]; [|congruence].
  rewrite E2 in E. injection E as _ <-. unfold arriving. rewrite D, D2, app_length. destruct W as [s p w L (l & Hl & ->)|s p w seqs p' w' L (l & Hl & ->) W];
    destruct Hl as [Hl _]; rewrite ?app_length; cbn [length]; lia.
Qed.

(** ** Loops: the number of rounds allowed does not matter as long as it exceeds the bytes that arrive *)
Definition enough {A} (loop : nat -> io A) : Prop := forall f1 f2 ext c1 c2, follows ext c1 c2 ->
  (length (arriving c1) < f1)%nat -> (length (arriving c2) < f2)%nat -> agree ext (loop f1 c1) (loop f2 c2).
Lemma steady_fuel {A} (loop : nat -> io A) : enough loop -> steady (fun c => loop (S (sched_len (c_rd c))) c).
Proof. intros H ext c1 c2 F. pose proof (arriving_le c1). pose proof (arriving_le c2). apply H; [exact F|lia..]. Qed.
Lemma agree_recv {B} ext (f f' : bytes -> io B) c1 c2 : follows ext c1 c2 ->
  (forall m d1 d2, follows ext d1 d2 -> (length (arriving d1) < length (arriving c1))%nat -> (length (arriving d2) < length (arriving c2))%nat ->
     agree ext (f m d1) (f' m d2)) -> agree ext (ibind recv_msg f c1) (ibind recv_msg f' c2).
Proof.
  intros F K. apply agree_bind; [apply steady_recv; exact F|]. intros m d1 d2 E1 E2 F'. apply K; [exact F'|eapply recv_takes; eassumption..].
Qed.
Definition keeps {A} (m : io A) : Prop := forall c, c_rd (snd (m c)) = c_rd c.
Lemma keeps_bind {A B} (m : io A) (f : A -> io B) : keeps m -> (forall a, keeps (f a)) -> keeps (ibind m f).
Proof.
  intros H K c. specialize (H c). unfold ibind. destruct (m c) as [[a|e|p|] d]; cbn [snd] in *; try exact H. rewrite K. exact H.
Qed.
Lemma keeps_write bs : keeps (io_write_all bs).
Proof. intros c. unfold io_write_all. destruct (write_all bs (c_ws c)) as [[r s] w]. reflexivity. Qed.
Lemma keeps_inc checks : keeps (inc_pkt_nr checks).
Proof. intros c. unfold inc_pkt_nr. destruct (c_pkt_nr c =? 255); [destruct checks|]; reflexivity. Qed.
Lemma keeps_packet checks p : keeps (send_packet checks p).
Proof.
  unfold send_packet. cbv zeta. apply keeps_bind; [apply keeps_write|]. intros _. apply keeps_bind; [intros c; apply (keeps_write [n2b (c_pkt_nr c)])|]. intros _.
  apply keeps_bind; [apply keeps_write|]. intros _. apply keeps_inc.
Qed.
Lemma keeps_send_loop checks fuel : forall bs, keeps (send_loop checks fuel bs).
Proof.
  induction fuel as [|fuel IH]; intros bs; cbn [send_loop]; [intros c; reflexivity|].
  destruct (max_payload <=? blen bs); [|apply keeps_packet]. apply keeps_bind; [apply keeps_packet|]. intros _. apply IH.
Qed.
Lemma send_keeps checks msg reset c r c' : send_msg checks msg reset c = (r, c') -> arriving c' = arriving c.
Proof.
  intros E. assert (K : keeps (send_msg checks msg reset)).
  { unfold send_msg. apply keeps_bind; [destruct reset; intros d; reflexivity|]. intros _. apply keeps_send_loop. }
  specialize (K c). rewrite E in K. unfold arriving. f_equal. exact K.
Qed.
Lemma steady_parse {A} (p : parser A) msg : steady (parse p msg). Proof. apply steady_lift. Qed.
Lemma steady_server_error {A} msg : steady (server_error (A := A) msg).
Proof.
  unfold server_error. apply (steady_cap (fun n => e <~ parse (read_err_packet n true) msg ;; ierr (error_of_err_packet e))).
  intros n. apply steady_bind; [apply steady_parse|]. intros e. apply steady_err.
Qed.
Create HintDb st.
#[export] Hint Resolve @steady_lift @steady_ret @steady_err @steady_panic steady_reset steady_set_nr steady_set_status steady_set_cap
  steady_send steady_recv @steady_parse @steady_server_error : st.
Ltac st := repeat first
  [ solve [auto with st nocore]
  | apply steady_bind; [|intros ?]
  | match goal with |- steady (fun c => ?m) => first [ eapply (steady_cap (fun n => _)); intros ? ] end
  | match goal with |- steady (match ?x with _ => _ end) => destruct x end ].
Lemma steady_capped {A} (m : N -> io A) (k : io A) : (forall c, k c = m (c_cap c) c) -> (forall n, steady (m n)) -> steady k.
Proof. intros E H ext c1 c2 F. rewrite !E. apply (steady_cap m H). exact F. Qed.
Lemma agree_bind_pure {A B} ext (r : res A) (f f' : A -> io B) c1 c2 : follows ext c1 c2 ->
  (forall a, r = Ok a -> agree ext (f a c1) (f' a c2)) -> agree ext (ibind (ilift r) f c1) (ibind (ilift r) f' c2).
Proof.
  intros F K. apply agree_bind; [apply steady_lift; exact F|]. intros a d1 d2 E1 E2 _. injection E1 as E1 <-. injection E2 as _ <-. auto.
Qed.

(** ** The calls *)
Lemma steady_col_defs n : steady (recv_col_defs n).
Proof. induction n as [|n IH]; cbn [recv_col_defs]; st. Qed.
Lemma steady_defs_eof : steady recv_defs_eof.
Proof.
  apply (steady_capped (fun n => if contains n DEPRECATE_EOF then iret tt else msg <~ recv_msg ;; _ <~ parse (read_eof_packet n) msg ;; iret tt)).
  - intros c. unfold recv_defs_eof. destruct (contains (c_cap c) DEPRECATE_EOF); reflexivity.
  - intros n. st.
Qed.
#[export] Hint Resolve steady_col_defs steady_defs_eof : st.
Lemma steady_new_rs id : steady (new_result_set id).
Proof.
  apply (steady_capped (fun n => msg <~ recv_msg ;; col_cnt <~ ilift (parse_col_cnt_packet n msg) ;;
    if col_cnt =? 0 then iret (rs_empty id) else col_defs <~ recv_col_defs (N.to_nat col_cnt) ;; _ <~ recv_defs_eof ;; iret (rs_new col_defs id))); [reflexivity|].
  intros n. st.
Qed.
#[export] Hint Resolve steady_new_rs : st.
Lemma steady_ok_only msg : steady (fun c => (_ <~ parse (read_ok_packet (c_cap c)) msg ;; iret tt) c).
Proof. apply (steady_capped (fun n => _ <~ parse (read_ok_packet n) msg ;; iret tt)); [reflexivity|]. intros n. st. Qed.
#[export] Hint Resolve steady_ok_only : st.
Lemma enough_query : enough query_exec_loop.
Proof.
  intros f1. induction f1 as [|f1 IH]; intros f2 ext c1 c2 F L1 L2; [lia|]. destruct f2 as [|f2]; [lia|]. cbn [query_exec_loop].
  apply agree_recv; [exact F|]. intros m d1 d2 F' M1 M2. destruct m as [|b m]; [apply steady_panic; exact F'|].
  destruct (b2n b =? 255); [apply steady_server_error; exact F'|]. destruct (b2n b =? 0); [apply steady_ok_only; exact F'|].
  apply IH; [exact F'|lia..].
Qed.
Lemma steady_query_exec checks sql : steady (query_exec checks sql).
Proof. unfold query_exec. apply steady_bind; [st|]. intros _. apply (steady_fuel query_exec_loop). apply enough_query. Qed.
Lemma steady_query_qry checks sql : steady (query_qry checks sql).
Proof. unfold query_qry. st. Qed.
Lemma steady_defs_block n : steady (recv_defs_block n).
Proof. unfold recv_defs_block. st. Qed.
#[export] Hint Resolve steady_query_exec steady_query_qry steady_defs_block : st.
Lemma steady_prepare checks sql : steady (stmt_prepare checks sql).
Proof. unfold stmt_prepare. st. Qed.
Lemma enough_stmt : enough stmt_exec_loop.
Proof.
  intros f1. induction f1 as [|f1 IH]; intros f2 ext c1 c2 F L1 L2; [lia|]. destruct f2 as [|f2]; [lia|]. cbn [stmt_exec_loop].
  apply agree_recv; [exact F|]. intros m d1 d2 F' M1 M2. destruct m as [|b m]; [apply steady_panic; exact F'|].
  destruct (b2n b =? 255); [apply steady_server_error; exact F'|]. destruct (b2n b =? 0); [apply steady_ok_only; exact F'|].
  apply IH; [exact F'|lia..].
Qed.
Lemma steady_stmt_exec checks ps params : steady (stmt_exec checks ps params).
Proof. unfold stmt_exec. apply steady_bind; [st|]. intros _. apply (steady_fuel stmt_exec_loop). apply enough_stmt. Qed.
Lemma steady_stmt_close checks ps : steady (stmt_close checks ps).
Proof. unfold stmt_close. st. Qed.
Lemma steady_stmt_qry checks ps params : steady (stmt_qry checks ps params).
Proof. unfold stmt_qry. st. Qed.
#[export] Hint Resolve steady_prepare steady_stmt_exec steady_stmt_close steady_stmt_qry : st.
(** closing a statement succeeds whatever happened before *)
Lemma close_ok checks ps c : accepting (c_ws c) -> exists c', stmt_close checks ps c = (Ok tt, c') /\ accepting (c_ws c').
Proof.
  intros A. destruct (send_msg_spec checks c (write_stmt_close (ps_stmt_id ps)) true A) as (seqs & w & c' & E & _ & _ & _ & _ & _ & A' & _).
  - reflexivity.
  - right. change (packet_count (blen (write_stmt_close (ps_stmt_id ps)))) with 1. lia.
  - exists c'. auto.
Qed.
Lemma steady_exec_close checks ps params : steady (stmt_exec_close checks ps params).
Proof.
  intros ext c1 c2 F. unfold stmt_exec_close. cbv zeta. pose proof (steady_stmt_exec checks ps params ext c1 c2 F) as H.
  destruct (stmt_exec checks ps params c1) as [r1 d1] eqn:E1, (stmt_exec checks ps params c2) as [r2 d2] eqn:E2.
  destruct H as [(H1 & H2 & H3)|(H1 & H0 & H2)]; cbn [fst snd] in *.
  - subst r2. pose proof H2 as Al. destruct Al as (_ & _ & _ & _ & A1 & A2).
    destruct (close_ok checks ps d1 A1) as (e1 & X1 & _). destruct (close_ok checks ps d2 A2) as (e2 & X2 & _).
    pose proof (steady_stmt_close checks ps ext d1 d2 (conj H2 H3)) as [(_ & Al2 & D2)|(Y & _)]; [|rewrite X1 in Y; discriminate Y].
    rewrite X1, X2 in *. destruct r1; left; auto.
  - subst r1. destruct (close_ok checks ps d1 H0) as (e1 & X1 & B1). rewrite X1. right. split; [reflexivity|]. split; [exact B1|].
    intros He. destruct (H2 He) as [-> Al]. pose proof Al as Al'. destruct Al' as (P1 & P2 & P3 & P4 & A1 & A2).
    destruct (close_ok checks ps d2 A2) as (e2 & X2 & _). rewrite X2. split; [reflexivity|].
    unfold stmt_close in X1, X2.
    pose proof (send_out checks (write_stmt_close (ps_stmt_id ps)) true d1 d2 Al) as K. rewrite X1, X2 in K. exact (proj2 K).
Qed.
#[export] Hint Resolve steady_exec_close : st.

(** ** Result sets *)
Lemma steady_fun {A} (m m' : io A) : (forall c, m c = m' c) -> steady m' -> steady m.
Proof. intros E H ext c1 c2 F. rewrite !E. apply H. exact F. Qed.
(** a row source reads at most one message, and hands out a row only after one *)
Record frugal {A} (next : rs_io (option A)) : Prop := {
  fr_steady : forall rs, steady (call_rs next rs);
  fr_takes : forall rs c row rs' c', next rs c = (Ok (Some row), rs', c') -> (length (arriving c') < length (arriving c))%nat }.
Lemma call_next {Q} (read : result_set -> parser (list Q)) rs : forall c, call_rs (next_row read) rs c =
  (if rs_completed rs then iret (None, rs)
   else fun c => ibind recv_msg (fun msg => let '(r, rs') := next_row_msg read (c_cap c) rs msg in ilift (rmap (fun a => (a, rs')) r)) c) c.
Proof.
  intros c. unfold call_rs, next_row, ibind. destruct (rs_completed rs); [reflexivity|].
  destruct (recv_msg c) as [[msg|e|p|] c']; try reflexivity. destruct (next_row_msg read (c_cap c) rs msg) as [r rs']. reflexivity.
Qed.
Lemma frugal_next {Q} (read : result_set -> parser (list Q)) : frugal (next_row read).
Proof.
  split.
  - intros rs. eapply steady_fun; [apply call_next|]. destruct (rs_completed rs); [apply steady_ret|].
    apply (steady_cap (fun n => ibind recv_msg (fun msg => let '(r, rs') := next_row_msg read n rs msg in ilift (rmap (fun a => (a, rs')) r)))).
    intros n. apply steady_bind; [apply steady_recv|]. intros msg. destruct (next_row_msg read n rs msg) as [r rs']. apply steady_lift.
  - intros rs c row rs' c' E. unfold next_row in E. destruct (rs_completed rs); [discriminate E|].
    destruct (recv_msg c) as [[msg|e|p|] d] eqn:R; try discriminate E.
    destruct (next_row_msg read (c_cap c) rs msg) as [r rs2]. injection E as -> <- <-. eapply recv_takes; eassumption.
Qed.
Lemma frugal_map {Q O} (read : result_set -> parser (list Q)) (f : list Q -> O) : frugal (map_next_row read f).
Proof.
  destruct (frugal_next read) as [S T]. split.
  - intros rs. apply (steady_fun _ (ibind (call_rs (next_row read) rs) (fun '(o, rs') => iret (option_map f o, rs')))).
    + intros c. unfold map_next_row, call_rs, ibind. destruct (next_row read rs c) as [[[o|e|p|] rs'] c']; reflexivity.
    + apply steady_bind; [apply S|]. intros [o rs']. apply steady_ret.
  - intros rs c row rs' c' E. unfold map_next_row in E. destruct (next_row read rs c) as [[r rs2] d] eqn:R.
    destruct r as [[o|]|e|p|]; try discriminate E. injection E as _ <- <-. eapply T. exact R.
Qed.
Lemma frugal_source {A} (next : rs_io (option A)) : row_source next -> frugal next.
Proof. intros []; [apply frugal_next|apply frugal_next|apply frugal_map|apply frugal_map]. Qed.
Lemma call_ok {A} (m : rs_io A) rs c a rs' c' : call_rs m rs c = (Ok (a, rs'), c') -> m rs c = (Ok a, rs', c').
Proof.
  unfold call_rs. destruct (m rs c) as [[[o|e|p|] r] d]; cbn [rmap]; intros E; inversion E; subst; reflexivity.
Qed.
Lemma enough_rows {A B} (next : rs_io (option A)) (step : B -> A -> B) : frugal next -> forall acc rs,
  enough (fun fuel => call_rs (while_rows fuel next step acc) rs).
Proof.
  intros [S T] acc rs f1. revert acc rs. induction f1 as [|f1 IH]; intros acc rs f2 ext c1 c2 F L1 L2; [lia|]. destruct f2 as [|f2]; [lia|].
  assert (U : forall f c, call_rs (while_rows (Datatypes.S f) next step acc) rs c =
    ibind (call_rs next rs) (fun '(o, rs') => match o with Some row => call_rs (while_rows f next step (step acc row)) rs' | None => iret (acc, rs') end) c).
  { intros f c. unfold call_rs, ibind. cbn [while_rows]. destruct (next rs c) as [[[[row|]|e|p|] rs'] c']; reflexivity. }
  rewrite !U. apply agree_bind; [apply S; exact F|]. intros [[row|] rs'] d1 d2 E1 E2 F'.
  - apply call_ok in E1. apply call_ok in E2. apply T in E1. apply T in E2. apply IH; [exact F'|lia..].
  - apply steady_ret. exact F'.
Qed.
Lemma steady_rows {A B} (next : rs_io (option A)) (step : B -> A -> B) acc rs : frugal next ->
  steady (call_rs (fun rs c => while_rows (S (sched_len (c_rd c))) next step acc rs c) rs).
Proof. intros H. apply (steady_fuel (fun fuel => call_rs (while_rows fuel next step acc) rs)). apply enough_rows. exact H. Qed.
Lemma steady_first_or_none {A} (next : rs_io (option A)) rs : frugal next -> steady (call_rs (rs_first_or_none next) rs).
Proof. apply steady_rows. Qed.
Lemma steady_first {A} (next : rs_io (option A)) rs : frugal next -> steady (call_rs (rs_first next) rs).
Proof.
  intros H. apply (steady_fun _ (ibind (call_rs (rs_first_or_none next) rs) (fun '(o, rs') => match o with Some row => iret (row, rs') | None => ierr EEmptyResultSet end))).
  - intros c. unfold rs_first, call_rs, ibind. destruct (rs_first_or_none next rs c) as [[[[row|]|e|p|] rs'] c']; reflexivity.
  - apply steady_bind; [apply steady_first_or_none; exact H|]. intros [[row|] rs']; [apply steady_ret|apply steady_err].
Qed.
Lemma steady_rs_close checks rs : steady (call_rs (rs_close checks) rs).
Proof.
  destruct (rs_stmt_id rs) as [id|] eqn:E.
  - apply (steady_fun _ (ibind (send_msg checks (write_stmt_close id) true) (fun u => iret (u, mk_res (rs_col_defs rs) (rs_completed rs) (rs_col_types rs) None)))).
    + intros c. unfold call_rs, rs_close, ibind. rewrite E. destruct (send_msg checks (write_stmt_close id) true c) as [[u|e|p|] c']; reflexivity.
    + st.
  - apply (steady_fun _ (iret (tt, rs))); [|apply steady_ret]. intros c. unfold call_rs, rs_close. rewrite E. reflexivity.
Qed.

(** ** Commands *)
Lemma steady_capped_recv {A} (k : io A) (f : N -> bytes -> io A) : (forall c, k c = ibind recv_msg (fun msg c => f (c_cap c) msg c) c) ->
  (forall n msg, steady (f n msg)) -> steady k.
Proof.
  intros E H. apply (steady_fun _ _ E). apply steady_bind; [apply steady_recv|]. intros msg. apply (steady_cap (fun n => f n msg)). intros n. apply H.
Qed.
Lemma steady_com_response : steady recv_com_response.
Proof.
  apply (steady_capped_recv _ (fun n msg => r <~ parse (read_com_response n) msg ;; match r with CrOk _ => iret tt | CrErr e => ierr (error_of_err_packet e) end)); [reflexivity|].
  intros n msg. st.
Qed.
#[export] Hint Resolve steady_com_response : st.
Lemma enough_fields acc : enough (fun fuel => field_list_loop fuel acc).
Proof.
  intros f1. revert acc. induction f1 as [|f1 IH]; intros acc f2 ext c1 c2 F L1 L2; [lia|]. destruct f2 as [|f2]; [lia|]. cbn [field_list_loop].
  apply agree_recv; [exact F|]. intros m d1 d2 F' M1 M2. cbv beta. destruct (proj1 F') as (-> & _). unfold parse.
  apply agree_bind_pure; [exact F'|]. intros [def|err|eof] _; [apply IH; [exact F'|lia..]|apply steady_err; exact F'|apply steady_ret; exact F'].
Qed.
Lemma steady_fields checks table wild : steady (conn_field_list checks table wild).
Proof. unfold conn_field_list. apply steady_bind; [st|]. intros _. apply (steady_fuel (fun fuel => field_list_loop fuel [])). apply enough_fields. Qed.
Lemma steady_debug checks : steady (conn_debug checks).
Proof.
  unfold conn_debug. apply steady_bind; [st|]. intros _. apply (steady_capped_recv _ (fun n msg => r <~ parse (read_debug_response n) msg ;;
    match r with DbEof _ => iret tt | DbErr err => ierr (error_of_err_packet err) end)); [reflexivity|]. intros n msg. st.
Qed.
Lemma steady_multi checks b : steady (conn_set_multi_stmts checks b).
Proof.
  unfold conn_set_multi_stmts. apply steady_bind; [st|]. intros _.
  apply (steady_capped_recv _ (fun n msg => r <~ parse (read_set_option_response n) msg ;;
    match r with SoEof _ => fun c => (Ok tt, set_cap c (if b then insert (c_cap c) MULTI_STATEMENTS else remove (c_cap c) MULTI_STATEMENTS))
               | SoErr err => ierr (error_of_err_packet err) end)); [reflexivity|].
  intros n msg. apply steady_bind; [st|]. intros [eof|err]; [|st].
  apply (steady_capped (fun n c => (Ok tt, set_cap c (if b then insert n MULTI_STATEMENTS else remove n MULTI_STATEMENTS)))); [reflexivity|]. intros. st.
Qed.
Section Auth.
  Variable sha1 sha256 : bytes -> bytes.
  Lemma enough_change_user checks pw p : enough (fun fuel => change_user_loop sha1 sha256 checks pw fuel p).
  Proof.
    intros f1. revert p. induction f1 as [|f1 IH]; intros p f2 ext c1 c2 F L1 L2; [lia|]. destruct f2 as [|f2]; [lia|]. cbn [change_user_loop].
    apply agree_recv; [exact F|]. intros m d1 d2 F' M1 M2. cbv beta. destruct (proj1 F') as (-> & _). unfold parse.
    assert (K : forall p1 resp, agree ext ((_ <~ send_msg checks resp false ;; change_user_loop sha1 sha256 checks pw f1 (Some p1)) d1)
      ((_ <~ send_msg checks resp false ;; change_user_loop sha1 sha256 checks pw f2 (Some p1)) d2)).
    { intros p1 resp. apply agree_bind; [apply steady_send; exact F'|]. intros u e1 e2 X1 X2 F2.
      apply send_keeps in X1. apply send_keeps in X2. apply IH; [exact F2|unfold arriving in *; rewrite ?X1, ?X2; lia..]. }
    apply agree_bind_pure; [exact F'|]. intros [err|sw|okp|more] _; [apply steady_err; exact F'| |apply steady_ret; exact F'|].
    - apply agree_bind_pure; [exact F'|]. intros p0 _. destruct (gen_init_auth_resp sha1 sha256 p0 pw (sw_data sw)) as [r p1].
      apply agree_bind_pure; [exact F'|]. intros resp _. apply K.
    - destruct p as [p0|]; [|apply steady_panic; exact F']. destruct (auth_next sha1 sha256 p0 (am_data more)) as [r p1].
      apply agree_bind_pure; [exact F'|]. intros resp _. apply K.
  Qed.
  Lemma steady_change_user checks user pw db attrs : steady (conn_change_user sha1 sha256 checks user pw db attrs).
  Proof.
    apply (steady_capped (fun n => _ <~ send_msg checks (write_change_user n (new_change_user user [] db (str "mysql_native_password") attrs)) true ;;
      fun c => change_user_loop sha1 sha256 checks pw (S (sched_len (c_rd c))) None c)); [reflexivity|].
    intros n. apply steady_bind; [st|]. intros _. apply (steady_fuel (fun fuel => change_user_loop sha1 sha256 checks pw fuel None)). apply enough_change_user.
  Qed.
  Lemma enough_handshake checks cap p : enough (fun fuel => handshake_loop sha1 sha256 checks cap fuel p).
  Proof.
    intros f1. revert p. induction f1 as [|f1 IH]; intros p f2 ext c1 c2 F L1 L2; [lia|]. destruct f2 as [|f2]; [lia|]. cbn [handshake_loop].
    apply agree_recv; [exact F|]. intros m d1 d2 F' M1 M2. apply agree_bind_pure; [exact F'|].
    intros [okp|err|sw|more] _.
    1: apply steady_bind; [apply steady_set_status|intros _; apply steady_reset|exact F'].
    all: try (apply steady_err; exact F'); try (apply steady_panic; exact F').
    destruct (auth_next sha1 sha256 p (am_data more)) as [r p1]. apply agree_bind_pure; [exact F'|]. intros resp _.
    apply agree_bind; [destruct resp; [apply steady_ret|apply steady_send]; exact F'|]. intros u e1 e2 X1 X2 F2.
    assert (A1 : arriving e1 = arriving d1) by (destruct resp; [injection X1 as _ <-; reflexivity|exact (send_keeps _ _ _ _ _ _ X1)]).
    assert (A2 : arriving e2 = arriving d2) by (destruct resp; [injection X2 as _ <-; reflexivity|exact (send_keeps _ _ _ _ _ _ X2)]).
    apply IH; [exact F2|rewrite ?A1, ?A2; lia..].
  Qed.
  Lemma steady_handshake checks opts : steady (handshake sha1 sha256 checks opts).
  Proof.
    unfold handshake. apply steady_bind; [st|]. intros msg. apply steady_bind; [st|]. intros hs. cbv zeta.
    apply steady_bind; [apply (steady_capped (fun n c => (Ok tt, set_cap c (login_caps n)))); [reflexivity|intros; st]|]. intros _.
    apply steady_bind; [st|]. intros p. destruct (gen_init_auth_resp sha1 sha256 p (o_password opts) (hs_auth_data_1 hs ++ hs_auth_data_2 hs)) as [r p1].
    apply steady_bind; [st|]. intros resp.
    apply steady_bind; [destruct (o_database opts); [st|apply (steady_capped (fun n c => (Ok tt, set_cap c (insert n CONNECT_WITH_DB)))); [reflexivity|intros; st]]|]. intros _.
    apply (steady_capped (fun cap => _ <~ send_msg checks (write_handshake_response (mk_hr cap 0xffffff 33 (o_username opts) resp (o_database opts) (hs_plugin hs) [])) false ;;
       fun c => handshake_loop sha1 sha256 checks cap (S (sched_len (c_rd c))) p1 c)); [reflexivity|].
    intros cap. apply steady_bind; [st|]. intros _. apply (steady_fuel (fun fuel => handshake_loop sha1 sha256 checks cap fuel p1)). apply enough_handshake.
  Qed.
End Auth.
#[export] Hint Resolve steady_fields steady_debug steady_multi : st.
Lemma steady_on_rs {A} (m : rs_io A) rs : steady (call_rs m rs) -> steady (on_rs m rs).
Proof.
  intros H. apply (steady_fun _ (ibind (call_rs m rs) (fun '(a, _) => iret a))).
  - intros c. unfold on_rs, call_rs, ibind. destruct (m rs c) as [[[a|e|p|] rs'] c']; reflexivity.
  - apply steady_bind; [exact H|]. intros [a rs']. apply steady_ret.
Qed.
Lemma enough_files files rs : enough (fun fuel => on_rs (binlog_files_loop fuel files) rs).
Proof.
  destruct (frugal_map text_rows binlog_file_mapper) as [S T].
  intros f1. revert files rs. induction f1 as [|f1 IH]; intros files rs f2 ext c1 c2 F L1 L2; [lia|]. destruct f2 as [|f2]; [lia|].
  assert (U : forall f c, on_rs (binlog_files_loop (Datatypes.S f) files) rs c =
    ibind (call_rs (map_next_row text_rows binlog_file_mapper) rs) (fun '(o, rs') => match o with
      | Some (Ok file) => on_rs (binlog_files_loop f (files ++ [file])) rs' | Some (Err e) => ierr e | Some (Panic p) => ipanic p
      | Some Loop => ilift Loop | None => iret files end) c).
  { intros f c. unfold call_rs, on_rs, ibind. cbn [binlog_files_loop]. destruct (map_next_row text_rows binlog_file_mapper rs c) as [[[[[row|e|p|]|]|e|p|] rs'] c']; reflexivity. }
  rewrite !U. apply agree_bind; [apply S; exact F|]. intros [[[row|e|p|]|] rs'] d1 d2 E1 E2 F'; try (apply steady_lift; exact F').
  apply call_ok in E1. apply call_ok in E2. apply T in E1. apply T in E2. apply IH; [exact F'|lia..].
Qed.
Lemma steady_files checks : steady (conn_binlog_files checks).
Proof.
  unfold conn_binlog_files. apply steady_bind; [st|]. intros rs. apply (steady_fuel (fun fuel => on_rs (binlog_files_loop fuel []) rs)). apply enough_files.
Qed.
Lemma steady_var {V} (from : option bytes -> res V) i rs :
  steady (on_rs (rs_first_or_none (map_next_row text_rows (fun row => get_col from row i))) rs).
Proof. apply steady_on_rs. apply steady_first_or_none. apply frugal_map. Qed.
#[export] Hint Resolve @steady_var steady_files : st.
Lemma steady_get_var {V} checks (from : option bytes -> res V) name global : steady (conn_get_var checks from name global).
Proof. unfold conn_get_var. st. Qed.
Lemma steady_get_user_var {V} checks (from : option bytes -> res V) name : steady (conn_get_user_var checks from name).
Proof. unfold conn_get_user_var. st. Qed.
Lemma steady_set_var checks name v global : steady (conn_set_var checks name v global).
Proof. unfold conn_set_var. st. Qed.
Lemma steady_set_user_var checks name v : steady (conn_set_user_var checks name v).
Proof. unfold conn_set_user_var. st. Qed.
#[export] Hint Resolve @steady_get_var @steady_get_user_var steady_set_var steady_set_user_var : st.

(** ** Binlog streams *)
Lemma steady_required {V} checks (from : option bytes -> res V) name e : steady (get_required checks from name e).
Proof. unfold get_required. st. Qed.
Lemma steady_recv_fde o : steady (recv_fde o).
Proof. unfold recv_fde. apply steady_bind; [st|]. intros msg. destruct (read_u8 msg) as [[b|e|p|] rest]; st. Qed.
#[export] Hint Resolve @steady_required steady_recv_fde : st.
Lemma steady_start checksum o : steady (recv_stream_start checksum o).
Proof.
  unfold recv_stream_start. apply steady_bind; [st|]. intros [|b rest]; [st|]. destruct (b2n b =? 255); [st|].
  destruct (b2n b =? 254).
  - apply (steady_capped (fun n => _ <~ parse (read_eof_packet n) (b :: rest) ;; iret (mk_stream (mk_parser [] false) (bo_validate o) true (bo_non_block o)))); [reflexivity|].
    intros n. st.
  - st.
Qed.
#[export] Hint Resolve steady_start : st.
Lemma steady_request checks uuid id o : steady (request_stream checks uuid id o).
Proof. unfold request_stream. st. Qed.
Lemma enough_event crc s : enough (fun fuel => next_event_loop crc fuel s).
Proof.
  intros f1. induction f1 as [|f1 IH]; intros f2 ext c1 c2 F L1 L2; [lia|]. destruct f2 as [|f2]; [lia|]. cbn [next_event_loop].
  assert (T : forall c e c', recv_and_parse_event crc s c = (Ok e, c') -> (length (arriving c') < length (arriving c))%nat).
  { intros c e c' E. unfold recv_and_parse_event in E. apply ibind_inv in E. destruct E as (msg & d & R & E). apply recv_takes in R.
    destruct msg as [|h msg]; [discriminate E|]. destruct (s_non_block s && (b2n h =? 254)); [injection E as _ <-; exact R|].
    destruct (negb (b2n h =? 0)); [discriminate E|]. apply ibind_inv in E. destruct E as (o & d2 & P & E). injection P as _ <-. injection E as _ <-. exact R. }
  assert (K : steady (recv_and_parse_event crc s)) by (unfold recv_and_parse_event; st).
  apply agree_bind; [apply K; exact F|]. intros e d1 d2 E1 E2 F'. apply T in E1. apply T in E2.
  destruct e as [e| |]; [apply steady_ret; exact F'|apply IH; [exact F'|lia..]|apply steady_ret; exact F'].
Qed.
Lemma steady_event crc s : steady (next_event crc s).
Proof.
  unfold next_event. destruct (s_completed s); [apply (steady_ret None)|]. apply (steady_fuel (fun fuel => next_event_loop crc fuel s)). apply enough_event.
Qed.

(** ** All programs *)
Lemma steady_attempt {A} (m : io A) : steady m -> steady (attempt m).
Proof.
  intros H ext c1 c2 F. specialize (H ext c1 c2 F). unfold attempt. destruct (m c1) as [r1 d1], (m c2) as [r2 d2].
  destruct H as [(H1 & H2 & H3)|(H1 & H0 & H2)]; cbn [fst snd] in *.
  - subst r2. destruct r1 as [a|[]|p|]; left; auto.
  - subst r1. right. split; [reflexivity|]. split; [exact H0|]. intros He. destruct (H2 He) as [-> Al]. auto.
Qed.
Lemma program_steady sha1 sha256 crc checks {A} (m : io A) : program sha1 sha256 crc checks m -> steady m.
Proof.
  induction 1; try (match goal with H : row_source _ |- _ => apply frugal_source in H end); auto using steady_attempt, steady_rows, steady_handshake, steady_change_user, steady_request, steady_event,
    steady_rs_close, steady_first, steady_first_or_none, fr_steady with st nocore.
  all: try (unfold rs_all, rs_count; apply steady_rows; assumption).
  all: try (unfold conn_quit, conn_init_db, conn_create_db, conn_drop_db, conn_refresh, conn_process_kill, conn_reset_connection, conn_register_slave,
    conn_statistics, conn_process_info; st; fail).
Qed.
