(** * C64: a binlog can be read in several sessions without losing or repeating an event

    The log, the server, the client and histories of sessions: Spec/Resume.v.  A client keeps the place after each event it
    was given (from the event itself) and asks for the log from there in its next session.  A session may end anywhere: the
    client stops, or the connection breaks off within the preliminaries, between events or within one. *)
From Coq Require Import Strings.String.
From Coq Require Import List NArith Bool Lia.
From Verif Require Import Model.Base Model.Auth Model.Conn Model.Event Model.Stream Spec.Wire Spec.Framing Spec.Packets
  Spec.Session Spec.Commands Spec.ResultSets Spec.BinlogSpec Spec.StreamSpec Spec.Programs Spec.Resume
  Proofs.BaseLemmas Proofs.CommandProofs Proofs.ResumeProofs Properties.C43_Stream.
Import ListNotations.
Open Scope N_scope.

(** Whatever the sessions and wherever they end, the events they deliver, one session after the other, are the log's
    supported events from the first place up to the last one, each once and in order; the place kept after the last
    session is the one where the rest of the log starts. *)
Theorem C64_exactly_once : forall x at_ runs at1 todo, setting_ok x -> history x at_ runs at1 -> to_come (st_log x) at_ todo ->
  exists t1 t2, todo = t1 ++ t2 /\ filter wanted (concat runs) = reported (st_sum x) t1 /\ to_come (st_log x) at1 t2.
Proof. intros x at_ runs at1 todo OK H T. exact (history_exact x OK at_ runs at1 H todo T). Qed.
Print Assumptions C64_exactly_once.

(** from the start of the first file *)
Theorem C64_whole_log : forall x f rest runs at1, setting_ok x -> st_log x = f :: rest -> history x (lf_name f, 4) runs at1 ->
  exists t1 t2, log_events (st_log x) = t1 ++ t2 /\ filter wanted (concat runs) = reported (st_sum x) t1 /\ to_come (st_log x) at1 t2.
Proof.
  intros x f rest runs at1 OK E H. apply (history_exact x OK _ _ _ H). exists (lf_first f), (lf_events f), rest. rewrite E. split; [|reflexivity].
  exists [], f, []. cbn. auto 10.
Qed.
Print Assumptions C64_whole_log.

(** A session on a connection that does not break off, in which the client asks for more events than there are, brings
    it up to date: of what was to come only what the server did not send is missing. *)
Theorem C64_catches_up : forall x uuid random_id n at_ c events at1 c' left todo, setting_ok x -> to_come (st_log x) at_ todo ->
  session (st_crc x) (st_checks x) uuid random_id (st_options x) n at_ c = (events, at1, c') ->
  served x uuid random_id at_ c c' left [] -> (length events < n)%nat ->
  exists t, todo = t ++ left /\ filter wanted events = reported (st_sum x) t.
Proof.
  intros x uuid rid n at_ c events at1 c' left todo OK T E S L.
  destruct (session_step x uuid rid n at_ c events at1 c' left [] todo OK T E S) as (t1 & t2 & -> & W & _ & K).
  destruct (K eq_refl L) as (u & -> & R). exists (t1 ++ u). rewrite app_assoc. split; [reflexivity|].
  pose proof (StreamProofs.reported_app (mk_stream (mk_parser [] (st_sum x)) false false false) t1 u) as A. cbn [p_checksum s_pv4] in A. rewrite A, R, app_nil_r. exact W.
Qed.
Print Assumptions C64_catches_up.

(** Finding: all files must agree on checksums.  A stream keeps reading as the first description said: if checksums are
    switched off on the server, events of the next file lose their last four bytes ... *)
Theorem C64_checksum_off_refuted : forall crc s e b t v c d, s_completed s = false -> p_checksum (s_pv4 s) = true -> s_validate s = false ->
  log_event_ok false e -> parsed false e = Some v -> le_body e = b ++ t -> length t = 4%nat ->
  awaits c [event_message crc false e] d ->
  exists c', next_event crc s c = (Ok (Some (mk_event (ev_kind v) (ev_header v) b)), c').
Proof. exact checksum_off. Qed.
Print Assumptions C64_checksum_off_refuted.
(** ... or panic, if they are shorter than that ... *)
Theorem C64_checksum_off_panic_refuted : forall crc s e c d, s_completed s = false -> p_checksum (s_pv4 s) = true -> s_validate s = false ->
  log_event_ok false e -> (length (le_body e) < 4)%nat ->
  awaits c [event_message crc false e] d -> exists c', next_event crc s c = (Panic PArith, c').
Proof. exact checksum_off_panic. Qed.
Print Assumptions C64_checksum_off_panic_refuted.
(** ... or are refused, if checksums are validated (and the body does not happen to end with its own checksum) ... *)
Theorem C64_checksum_off_error_refuted : forall crc s e b t c d, s_completed s = false -> p_checksum (s_pv4 s) = true -> s_validate s = true ->
  log_event_ok false e -> le_body e = b ++ wle 4 t -> t < 2 ^ 32 -> t <> crc (event_front true (with_body e b)) ->
  awaits c [event_message crc false e] d ->
  exists c', next_event crc s c = (Err (EChecksum t (crc (event_front true (with_body e b)))), c').
Proof. exact checksum_off_bad. Qed.
Print Assumptions C64_checksum_off_error_refuted.
(** ... and if checksums are switched on, events get their checksum as four more bytes. *)
Theorem C64_checksum_on_refuted : forall crc s e v c d, s_completed s = false -> p_checksum (s_pv4 s) = false ->
  log_event_ok true e -> parsed true e = Some v -> awaits c [event_message crc true e] d ->
  exists c', next_event crc s c = (Ok (Some (mk_event (ev_kind v) (ev_header v) (ev_data v ++ wle 4 (crc (event_front true e))))), c').
Proof. exact checksum_on. Qed.
Print Assumptions C64_checksum_on_refuted.

(** *** Examples *)
Definition descr_ex : fde_spec := mk_fde_spec 4 (str "5.7.30-log") 0 19 (repeat x08 14 ++ [x5f] ++ repeat x08 23) (Some (1, [x01; x02; x03; x04])).
(** a transaction's end, an event that is not supported, the rotate event; a transaction's end and a stop event *)
Definition file1 : log_file := mk_lf (str "b.1") descr_ex 120
  [mk_log_event 1 16 2 151 0 (wle 8 77); mk_log_event 1 28 2 174 0 []; mk_log_event 1 4 2 208 0 (wle 8 4 ++ str "b.2")].
Definition file2 : log_file := mk_lf (str "b.2") descr_ex 120 [mk_log_event 1 16 2 151 0 (wle 8 78); mk_log_event 1 3 2 174 0 []].
Definition setting_ex : setting := mk_setting crc32 true (bo_set_server_id 7 (bo_set_non_block true bo_new)) true [file1; file2].

Lemma descr_ex_ok : fde_ok descr_ex.
Proof.
  split; [reflexivity|]. split; [cbn; repeat constructor|]. split; [cbn; unfold no_nul; cbn; intuition discriminate|].
  split; [reflexivity|]. split; [reflexivity|]. split; [reflexivity|]. split; [reflexivity|]. split; [reflexivity|]. split; reflexivity.
Qed.
Lemma log_ex_ok : log_ok true [file1; file2].
Proof.
  split; [repeat constructor; cbn; intuition discriminate|]. split.
  - constructor; [|constructor; [|constructor]]; (split; [reflexivity|]; split; [exact descr_ex_ok|]; split; [reflexivity|]; split; [split; reflexivity|];
      split; [repeat constructor|cbn; auto 10]).
  - cbn [linked]. split; [|repeat constructor; discriminate].
    exists [mk_log_event 1 16 2 151 0 (wle 8 77); mk_log_event 1 28 2 174 0 []], (mk_log_event 1 4 2 208 0 (wle 8 4 ++ str "b.2")).
    split; [reflexivity|]. split; [repeat constructor; discriminate|]. split; [split; reflexivity|reflexivity].
Qed.
Example C64_setting : setting_ok setting_ex.
Proof. split; [exact EventProofs.crc32_lt|]. split; [reflexivity|]. split; [reflexivity|]. split; [reflexivity|exact log_ex_ok]. Qed.

(** the connections: the answers to the preliminaries, then what is sent, and all but the last [k] bytes of it arrive *)
Definition cap_ex : N := 0x01000200.
Definition answers_ex : list bytes :=
  example_var (str "1") ++ example_set 1 ++ example_var (str "CRC32") ++ example_set 2 ++ example_var (str "OFF") ++ example_var example_uuid ++
  example_set 3 ++ [ok_wire cap_ex 0 0 0 2 0 [] []].
Definition rotate_ex : bytes := x00 :: event_front true (mk_log_event 0 4 1 0 32 (wle 8 4 ++ str "b.1")) ++ [x00; x00; x00; x00].
Definition descr_message_ex : bytes := x00 :: event_front false (mk_log_event 0 15 1 0 0 (fde_body descr_ex)).
Definition between_ex : list log_event := [mk_log_event 0 4 1 0 32 (wle 8 4 ++ str "b.2"); mk_log_event 0 15 1 120 0 (str "description")].
Definition beat_ex : log_event := mk_log_event 0 27 1 174 32 (str "b.2").
Definition eof_ex : bytes := eof_wire cap_ex 0 2.
Definition served_ex (sent : list log_event) (stop : list bytes) : list bytes :=
  rotate_ex :: descr_message_ex :: map (event_message crc32 true) sent ++ stop.
Definition stream_ex (ms : list bytes) : bytes := delivered (chunks (answers_ex ++ ms)).
Definition conn_ex (ms : list bytes) (k : nat) : conn :=
  mk_conn [RData (firstn (length (stream_ex ms) - k) (stream_ex ms))] [] [] cap_ex 0 0.
Definition ms1 := served_ex (lf_events file1 ++ between_ex ++ lf_events file2) [eof_ex].
Definition ms2 := served_ex (skipn 1 (lf_events file1) ++ between_ex ++ lf_events file2) [].
Definition ms3 := served_ex (lf_events file2 ++ [beat_ex]) [eof_ex].
Definition run_ex n at_ c := session (st_crc setting_ex) (st_checks setting_ex) example_uuid 0 (st_options setting_ex) n at_ c.
(** after one event the client stops; the second session breaks off within the first event of the second file; the third
    reads the rest *)
Local Notation run1 := (run_ex 1 (str "b.1", 4) (conn_ex ms1 0)).
Local Notation run2 := (run_ex 10 (str "b.1", 151) (conn_ex ms2 40)).
Local Notation run3 := (run_ex 10 (str "b.2", 120) (conn_ex ms3 0)).
Example C64_runs :
  (map ev_kind (fst (fst run1)), snd (fst run1)) = ([KXid], (str "b.1", 151)) /\
  (map ev_kind (fst (fst run2)), snd (fst run2)) = ([KRotate; KRotate; KFormatDescription], (str "b.2", 120)) /\
  (map ev_kind (fst (fst run3)), snd (fst run3)) = ([KXid; KStop; KHeartbeat], (str "b.2", 174)) /\
  filter wanted (fst (fst run1) ++ fst (fst run2) ++ fst (fst run3)) = reported true (lf_events file1 ++ lf_events file2).
Proof. vm_compute. auto. Qed.

Lemma set_up_ex at_ : exists qs, set_up cap_ex (start_at (st_options setting_ex) at_) example_uuid 7 1 (str "CRC32") (str "OFF") qs answers_ex.
Proof.
  eexists. apply (set_up_intro cap_ex _ example_uuid 7 1 (str "1") (str "CRC32") (str "OFF") example_uuid 1 2 3
      (example_var (str "1")) (example_set 1) (example_var (str "CRC32")) (example_set 2) (example_var (str "OFF"))
      (example_var example_uuid) (example_set 3) (ok_wire cap_ex 0 0 0 2 0 [] []));
      first [reflexivity | apply example_variable; reflexivity | apply example_setting; reflexivity | idtac].
  - exists 0%nat, []. split; [reflexivity|]. split; [reflexivity|left; reflexivity].
  - cbn. repeat constructor.
  - constructor; reflexivity.
Qed.
(** the only request for the log among the messages sent *)
Definition dumps (asked : bytes * N) (m : bytes) : bool :=
  match server_request cap_ex m with
  | Some (RqBinlogDump pos _ _ name) => beqb name (fst asked) && (pos =? snd asked)
  | Some (RqBinlogDumpGtid _ _ name pos _) => false
  | _ => true
  end.
Lemma asked_ex c c' asked l : c_cap c = cap_ex -> c_out c = [] -> frames 100 (c_out c') = Some l -> forallb (dumps asked) l = true ->
  forall sent m place, commanded c c' sent -> In m sent -> dump_request (c_cap c) m place -> place = asked.
Proof.
  intros C O F D sent m place (w & W & E) I R. rewrite O in E. cbn [app] in E. rewrite E in F. rewrite (frames_only _ _ _ _ F W) in I.
  rewrite forallb_forall in D. specialize (D m I). unfold dumps in D. rewrite C in R. destruct place as [name pos]. unfold dump_request, asks in R. cbn [fst snd] in R.
  destruct R as [(wait & id & R)|(fl & id & sids & R)]; rewrite R in D; [|discriminate D]. apply andb_prop in D as [D1 D2].
  apply N.eqb_eq in D2. apply ExtractProofs.beqb_true in D1. subst. symmetry. apply surjective_pairing.
Qed.
Lemma served_session at_ n ms k left : serves crc32 true [file1; file2] at_ left ms ->
  Forall (fun p => N.of_nat (length p) < full) (answers_ex ++ ms) ->
  match frames 100 (c_out (snd (run_ex n at_ (conn_ex ms k)))) with Some l => forallb (dumps at_) l | None => false end = true ->
  exists lost, served setting_ex example_uuid 0 at_ (conn_ex ms k) (snd (run_ex n at_ (conn_ex ms k))) left lost /\ (k = 0%nat -> lost = []).
Proof.
  intros S F D. destruct (frames 100 _) as [l|] eqn:Fr; [|discriminate D]. set (cut := (length (stream_ex ms) - k)%nat). exists (skipn cut (stream_ex ms)). split.
  - destruct (set_up_ex at_) as (qs & Q). exists 7, 1, (str "CRC32"), (str "OFF"), qs, answers_ex, at_, ms.
    split; [reflexivity|]. split; [reflexivity|]. split; [reflexivity|]. split; [split; reflexivity|]. split; [exact Q|]. split; [exact S|].
    split; [apply (asked_ex (conn_ex ms k) _ at_ l eq_refl eq_refl Fr D)|]. split; [exact I|].
    assert (E : arriving (conn_ex ms k) = firstn cut (stream_ex ms)).
    { unfold arriving, conn_ex. cbn [c_rd delivered]. fold cut. destruct (firstn cut (stream_ex ms)); [reflexivity|apply app_nil_r]. }
    rewrite E, firstn_skipn. destruct (chunks_await (answers_ex ++ ms) [] [] 0 0 0 F) as (w & W & Dw). cbn [c_rd] in Dw. rewrite app_nil_r in Dw.
    unfold stream_ex. rewrite Dw. exact W.
  - intros ->. subst cut. rewrite Nat.sub_0_r. apply skipn_all.
Qed.
Lemma messages_ex : Forall (fun p : bytes => N.of_nat (length p) < full) (answers_ex ++ ms1) /\
  Forall (fun p : bytes => N.of_nat (length p) < full) (answers_ex ++ ms2) /\ Forall (fun p : bytes => N.of_nat (length p) < full) (answers_ex ++ ms3).
Proof.
  assert (H : forall l : list bytes, forallb (fun p => N.of_nat (length p) <? full) l = true -> Forall (fun p : bytes => N.of_nat (length p) < full) l).
  { intros l H. rewrite forallb_forall in H. apply Forall_forall. intros p I. apply N.ltb_lt. apply (H p I). }
  split; [|split]; apply H; vm_compute; reflexivity.
Qed.
Lemma start_ex : rotate_message true rotate_ex /\ description_message descr_ex descr_message_ex.
Proof.
  split.
  - exists (mk_log_event 0 4 1 0 32 (wle 8 4 ++ str "b.1")), 4, (str "b.1"), [x00; x00; x00; x00]. repeat split.
  - exists (mk_log_event 0 15 1 0 0 (fde_body descr_ex)). split; [repeat split|]. split; [reflexivity|]. split; [exact descr_ex_ok|]. split; reflexivity.
Qed.
Lemma feed_file2 pos sent left : feed true 120 (lf_events file2) [] sent left -> feed true pos [] [file2] (between_ex ++ sent) left.
Proof.
  intros H. unfold between_ex. cbn [app]. apply feed_file; try reflexivity; try exact H; repeat split; reflexivity.
Qed.
Lemma serves1 : serves crc32 true [file1; file2] (str "b.1", 4) [] ms1.
Proof.
  destruct start_ex as [S1 S2].
  exists 120, (lf_events file1), [file2], descr_ex, rotate_ex, descr_message_ex, (lf_events file1 ++ between_ex ++ lf_events file2), [eof_ex].
  split; [exists [], file1, []; cbn; auto 10|]. split; [exists file1; cbn; auto|]. split; [exact S1|]. split; [exact S2|].
  split; [|split; [right; exists xfe, (tl eof_ex); split; [reflexivity|discriminate]|reflexivity]].
  cbn [lf_events file1 app]. do 3 apply feed_event. apply feed_file2. cbn [lf_events file2]. do 2 apply feed_event. exact (feed_stop true _ [] []).
Qed.
Lemma serves2 : serves crc32 true [file1; file2] (str "b.1", 151) [] ms2.
Proof.
  destruct start_ex as [S1 S2].
  exists 151, (skipn 1 (lf_events file1)), [file2], descr_ex, rotate_ex, descr_message_ex, (skipn 1 (lf_events file1) ++ between_ex ++ lf_events file2), [].
  split; [exists [], file1, [mk_log_event 1 16 2 151 0 (wle 8 77)]; cbn; auto 10|]. split; [exists file1; cbn; auto|]. split; [exact S1|]. split; [exact S2|].
  split; [|split; [left; reflexivity|reflexivity]].
  cbn [lf_events file1 skipn app]. do 2 apply feed_event. apply feed_file2. cbn [lf_events file2]. do 2 apply feed_event. exact (feed_stop true _ [] []).
Qed.
Lemma serves3 : serves crc32 true [file1; file2] (str "b.2", 120) [] ms3.
Proof.
  destruct start_ex as [S1 S2].
  exists 120, (lf_events file2), [], descr_ex, rotate_ex, descr_message_ex, (lf_events file2 ++ [beat_ex]), [eof_ex].
  split; [exists [file1], file2, []; cbn; auto 10|]. split; [exists file2; cbn; auto|]. split; [exact S1|]. split; [exact S2|].
  split; [|split; [right; exists xfe, (tl eof_ex); split; [reflexivity|discriminate]|reflexivity]].
  cbn [lf_events file2 app]. do 2 apply feed_event. apply feed_heartbeat; try reflexivity; [repeat split; reflexivity|right; reflexivity|]. exact (feed_stop true _ [] []).
Qed.
Lemma step_ex n at_ c at1 lost runs at2 : snd (fst (run_ex n at_ c)) = at1 ->
  served setting_ex example_uuid 0 at_ c (snd (run_ex n at_ c)) [] lost -> history setting_ex at1 runs at2 ->
  history setting_ex at_ (fst (fst (run_ex n at_ c)) :: runs) at2.
Proof.
  intros E S H. apply (hist_session setting_ex at_ example_uuid 0 n c _ at1 (snd (run_ex n at_ c)) [] lost); [|exact S|exact H].
  fold (run_ex n at_ c). rewrite <- E. destruct (run_ex n at_ c) as [[? ?] ?]. reflexivity.
Qed.
Lemma served1 : exists lost, served setting_ex example_uuid 0 (str "b.1", 4) (conn_ex ms1 0) (snd run1) [] lost /\ (0%nat = 0%nat -> lost = []).
Proof. apply (served_session (str "b.1", 4) 1 ms1 0 [] serves1 (proj1 messages_ex)). vm_compute. reflexivity. Qed.
Lemma served2 : exists lost, served setting_ex example_uuid 0 (str "b.1", 151) (conn_ex ms2 40) (snd run2) [] lost /\ (40%nat = 0%nat -> lost = []).
Proof. apply (served_session (str "b.1", 151) 10 ms2 40 [] serves2 (proj1 (proj2 messages_ex))). vm_compute. reflexivity. Qed.
Lemma served3 : exists lost, served setting_ex example_uuid 0 (str "b.2", 120) (conn_ex ms3 0) (snd run3) [] lost /\ (0%nat = 0%nat -> lost = []).
Proof. apply (served_session (str "b.2", 120) 10 ms3 0 [] serves3 (proj2 (proj2 messages_ex))). vm_compute. reflexivity. Qed.
Example C64_history : history setting_ex (str "b.1", 4) [fst (fst run1); fst (fst run2); fst (fst run3)] (str "b.2", 174).
Proof.
  destruct served1 as (l1 & R1 & _), served2 as (l2 & R2 & _), served3 as (l3 & R3 & _).
  apply (step_ex _ _ _ _ l1 _ _ (f_equal snd (proj1 C64_runs)) R1).
  apply (step_ex _ _ _ _ l2 _ _ (f_equal snd (proj1 (proj2 C64_runs))) R2).
  apply (step_ex _ _ _ _ l3 _ _ (f_equal snd (proj1 (proj2 (proj2 C64_runs)))) R3).
  apply hist_none.
Qed.
(** [C64_catches_up] applies to the third session *)
Example C64_catching_up : served setting_ex example_uuid 0 (str "b.2", 120) (conn_ex ms3 0) (snd run3) [] [] /\ length (fst (fst run3)) = 3%nat.
Proof.
  split; [|vm_compute; reflexivity]. destruct served3 as (l3 & R3 & Z). rewrite (Z eq_refl) in R3. exact R3.
Qed.
(** the findings: a stop event and a transaction's end without checksums on a stream that expects them *)
Example C64_checksums :
  (exists c, awaits c [event_message crc32 false (mk_log_event 1 16 2 151 0 (wle 8 77))] [] /\
     fst (next_event crc32 (mk_stream (mk_parser [] true) false false true) c) = Ok (Some (mk_event KXid (mk_header 1 EtXid 2 27 151 0) (firstn 4 (wle 8 77))))) /\
  (exists c, awaits c [event_message crc32 false (mk_log_event 1 3 2 151 0 [])] [] /\
     fst (next_event crc32 (mk_stream (mk_parser [] true) false false true) c) = Panic PArith) /\
  (exists c, awaits c [event_message crc32 true (mk_log_event 1 3 2 151 0 [])] [] /\
     fst (next_event crc32 (mk_stream (mk_parser [] false) false false true) c) =
       Ok (Some (mk_event KStop (mk_header 1 EtStop 2 23 151 0) (wle 4 (crc32 (event_front true (mk_log_event 1 3 2 151 0 []))))))).
Proof.
  split; [|split]; eexists (mk_conn (chunks [_]) [] [] 0x200 0 0); (split; [apply chunks_await; constructor; [|constructor]; vm_compute; reflexivity|vm_compute; reflexivity]).
Qed.
