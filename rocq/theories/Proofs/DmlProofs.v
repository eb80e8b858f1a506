(** Proofs about the command [dml] *)
From Coq Require Import Strings.String.
From Verif Require Import Model.Base Model.BytesParser Model.Flags Model.Packet
  Model.Conn Model.Auth Model.Fmt Model.Cmd Model.Col Model.Row Model.Rows Model.Stmt Model.Session Model.Event Model.Stream Model.Transform
  Model.MyBinlog
  Spec.Wire Spec.Packets Spec.Values Spec.Framing Spec.Session Spec.Commands
  Spec.Execute Spec.ExtractSpec Spec.ResultSets Spec.BinlogSpec Spec.StreamSpec Spec.DmlSpec
  Proofs.BaseLemmas Proofs.PacketProofs Proofs.ConnProofs Proofs.AuthProofs Proofs.SessionProofs Proofs.CommandProofs Proofs.StreamProofs.
Open Scope N_scope.

Lemma Forall2_length {A B} {R : A -> B -> Prop} {a b} : Forall2 R a b -> length a = length b.
Proof. induction 1; cbn [length]; congruence. Qed.

(** ** printing until the limit *)
Fixpoint cut (limit n : N) (ls : list line) : list line * bool :=
  match ls with
  | [] => ([], false)
  | LNote s :: ls => let '(out, b) := cut limit n ls in (LNote s :: out, b)
  | LStmt s :: ls =>
      if negb (limit =? 0) && (limit <=? n + 1) then ([LStmt s], true)
      else let '(out, b) := cut limit (n + 1) ls in (LStmt s :: out, b)
  end.
Lemma n_stmts_app a b : n_stmts (a ++ b) = n_stmts a + n_stmts b.
Proof. induction a as [|[s|s] a IH]; [reflexivity| |]; cbn [app n_stmts]; lia. Qed.
Lemma cut_app limit ls1 : forall n ls2, cut limit n (ls1 ++ ls2) =
  let '(out, b) := cut limit n ls1 in
  if b then (out, true) else let '(out2, b2) := cut limit (n + n_stmts ls1) ls2 in (out ++ out2, b2).
Proof.
  induction ls1 as [|[s|s] ls1 IH]; intros n ls2; cbn [app cut n_stmts].
  - rewrite N.add_0_r. destruct (cut limit n ls2); reflexivity.
  - destruct (_ && _); [reflexivity|]. rewrite IH. destruct (cut limit (n + 1) ls1) as [out []]; [reflexivity|].
    rewrite N.add_assoc. destruct (cut limit (n + 1 + n_stmts ls1) ls2); reflexivity.
  - rewrite IH. destruct (cut limit n ls1) as [out []]; [reflexivity|]. destruct (cut _ _ ls2); reflexivity.
Qed.
Lemma cut_spec limit ls : forall n, (limit = 0 \/ n < limit) ->
  let '(out, b) := cut limit n ls in
  if b then limit <> 0 /\ n + n_stmts out = limit /\ exists before s rest, out = before ++ [LStmt s] /\ ls = out ++ rest
  else out = ls /\ (limit = 0 \/ n + n_stmts ls < limit).
Proof.
  induction ls as [|[s|s] ls IH]; intros n H; cbn [cut n_stmts].
  - split; auto. rewrite N.add_0_r. exact H.
  - destruct (N.eqb_spec limit 0) as [Z|Z]; cbn [negb andb].
    + specialize (IH (n + 1) (or_introl Z)). destruct (cut limit (n + 1) ls) as [out []].
      * destruct IH as (A & _). contradiction.
      * destruct IH as (-> & _). auto.
    + destruct (N.leb_spec limit (n + 1)).
      * split; [exact Z|]. split; [cbn [n_stmts]; lia|]. exists [], s, ls. auto.
      * specialize (IH (n + 1) ltac:(right; lia)). destruct (cut limit (n + 1) ls) as [out []].
        -- destruct IH as (A & B & before & s' & rest & -> & ->). split; [exact A|]. split; [cbn [n_stmts]; lia|].
           exists (LStmt s :: before), s', rest. auto.
        -- destruct IH as (-> & [A|A]); [contradiction|]. split; [reflexivity|right; lia].
  - specialize (IH n H). destruct (cut limit n ls) as [out []].
    + destruct IH as (A & B & before & s' & rest & -> & ->). split; [exact A|]. split; [exact B|].
      exists (LNote s :: before), s', rest. auto.
    + destruct IH as (-> & A). auto.
Qed.
Lemma cut_limited limit ls : limited limit ls (fst (cut limit 0 ls)).
Proof.
  pose proof (cut_spec limit ls 0 ltac:(destruct (N.eq_dec limit 0); [left; assumption|right; lia])) as H.
  unfold limited. destruct (cut limit 0 ls) as [out []]; cbn [fst].
  - destruct H as (A & B & before & s & rest & E1 & E2).
    destruct (N.eqb_spec limit 0); [contradiction|]. cbn [orb].
    assert (L : n_stmts ls = n_stmts out + n_stmts rest) by (rewrite E2 at 1; apply n_stmts_app).
    destruct (N.ltb_spec (n_stmts ls) limit); [lia|]. split; [lia|]. eauto 6.
  - destruct H as (-> & [A|A]).
    + subst limit. reflexivity.
    + rewrite N.add_0_l in A. apply N.ltb_lt in A. rewrite A, orb_true_r. reflexivity.
Qed.
Lemma print_stmts_cut limit l : forall n, print_stmts limit n l =
  let '(out, b) := cut limit n (map LStmt l) in
  (map text out, if b then None else Some (n + n_stmts (map LStmt l))).
Proof.
  induction l as [|s l IH]; intros n; cbn [print_stmts map cut n_stmts].
  - rewrite N.add_0_r. reflexivity.
  - destruct (_ && _); [reflexivity|]. rewrite IH. destruct (cut limit (n + 1) (map LStmt l)) as [out []]; [reflexivity|].
    cbn [map text]. rewrite N.add_assoc. reflexivity.
Qed.

(** ** mappings *)
Lemma consistent_earliest items : forall recent, consistent recent items ->
  (forall id, earliest recent id = latest recent id) ->
  forall done rest, items = done ++ rest -> forall id, earliest (rev done ++ recent) id = latest (rev done ++ recent) id.
Proof.
  induction items as [|it items IH]; intros recent Hc H done rest E.
  - destruct done; [|discriminate]. exact H.
  - destruct done as [|it' done]; [exact H|]. cbn [app] in E. injection E as <- E.
    cbn [consistent] in Hc. destruct Hc as [H1 H2].
    intros id. cbn [rev]. rewrite <- app_assoc. cbn [app]. apply (IH (it :: recent) H2) with (rest := rest); [|exact E].
    clear id. intros id. destruct it as [i tm| | |]; cbn [earliest latest]; auto.
    rewrite H. destruct (N.eqb_spec i id) as [->|N].
    + destruct (latest recent id) as [t|]; [subst; reflexivity|reflexivity].
    + destruct (latest recent id); reflexivity.
Qed.
Lemma printed_ext f32 f64 passes defs_of (r1 r2 : list item -> N -> option table_map) items : forall recent,
  (forall done rest, items = done ++ rest -> forall id, r1 (rev done ++ recent) id = r2 (rev done ++ recent) id) ->
  printed f32 f64 passes defs_of r1 recent items = printed f32 f64 passes defs_of r2 recent items /\
  lookups passes r1 recent items = lookups passes r2 recent items.
Proof.
  induction items as [|it items IH]; intros recent H; [split; reflexivity|]. cbn [printed lookups].
  pose proof (H [] (it :: items) eq_refl) as H0. cbn [rev app] in H0.
  destruct (IH (it :: recent)) as [E1 E2].
  { intros done rest E id. specialize (H (it :: done) rest ltac:(cbn [app]; rewrite E; reflexivity) id).
    cbn [rev] in H. rewrite <- app_assoc in H. exact H. }
  rewrite E1, E2. split; destruct it as [i tm|c i d p| |]; rewrite ?H0; reflexivity.
Qed.

Lemma key_exists_keyed defs : key_exists defs = existsb keyed defs.
Proof.
  unfold key_exists. induction defs as [|d defs IH]; [reflexivity|]. cbn [existsb]. rewrite IH. f_equal. unfold keyed.
  rewrite <- (contains_testbit (cd_flags d) 1), <- (contains_testbit (cd_flags d) 2). reflexivity.
Qed.

(** ** the loop *)
Section Chain.
  Variables (crc : bytes -> N) (s : binlog_stream).
  (** the events the calls of [next_event] return, one after the other *)
  Inductive chain : conn -> list Event.event -> conn -> Prop :=
  | chain_nil c : chain c [] c
  | chain_cons c e c1 es c2 : next_event crc s c = (Ok (Some e), c1) -> chain c1 es c2 -> chain c (e :: es) c2.
  Lemma chain_pulls n : forall evs c r c', length evs = n -> io_pulls (next_event crc s) (S n) c = (returned evs ++ [r], c') ->
    exists c1, chain c evs c1 /\ next_event crc s c1 = (r, c').
  Proof.
    induction n as [|n IH]; intros evs c r c' L E; destruct evs as [|e evs]; try discriminate L.
    - cbn in E. destruct (next_event crc s c) as [r0 c0] eqn:N. injection E as -> ->. exists c. split; [constructor|exact N].
    - cbn [io_pulls] in E. destruct (next_event crc s c) as [r0 c0] eqn:N.
      change (io_pulls (next_event crc s) (S n) c0) with (io_pulls (next_event crc s) (S n) c0) in E.
      specialize (IH evs c0 r c' ltac:(cbn [length] in L; lia)).
      cbn [io_pulls] in IH. destruct (next_event crc s c0) as [r1 c1] eqn:N1.
      destruct (io_pulls (next_event crc s) n c1) as [l c2] eqn:P. cbn [returned map app] in E.
      injection E as -> E2 ->. destruct (IH ltac:(f_equal; exact E2)) as (c3 & C & X). exists c3.
      split; [econstructor; eassumption|exact X].
  Qed.

End Chain.

Section Loop.
  Variables fmt_f32 fmt_f64 : N -> bytes.
  Variable crc : bytes -> N.
  Variable checks : bool.
  Variable o : dml_options.
  Variable s : binlog_stream.
  Variable defs_of : bytes -> bytes -> list column_def.
  Let passes := selected o.
  Let loop := dml_loop fmt_f32 fmt_f64 crc checks o.
  Let event := dml_event fmt_f32 fmt_f64 checks o.
  Let lines := printed fmt_f32 fmt_f64 passes defs_of earliest.
  Let asks_for := lookups passes earliest.
  Notation chain := (chain crc s).

  (** state and history *)
  Definition meta_for (tm : table_map) : table_meta :=
    mk_meta (tm_schema_name tm) (tm_table_name tm) (tm_col_metas tm) (defs_of (tm_schema_name tm) (tm_table_name tm)).
  Definition knows (recent : list item) (st : dml_state) : Prop :=
    forall id, match earliest recent id with
    | None => find_table id (dm_tbls st) = None /\ skips id (dm_skip st) = false
    | Some tm => if passes tm then find_table id (dm_tbls st) = Some (meta_for tm) /\ skips id (dm_skip st) = false
                 else find_table id (dm_tbls st) = None /\ skips id (dm_skip st) = true
    end.
  Lemma with_table_knows recent st id k : knows recent st ->
    with_table st id k = match earliest recent id with
                         | Some tm => if passes tm then k (meta_for tm) else Ok ([], Some st)
                         | None => Ok ([], Some st)
                         end.
  Proof.
    intros H. specialize (H id). unfold with_table. destruct (earliest recent id) as [tm|].
    - destruct (passes tm); destruct H as [-> ->]; reflexivity.
    - destruct H as [-> ->]. reflexivity.
  Qed.
  Lemma matches_selected tm :
    negb (matches (do_database o) (tm_schema_name tm)) || negb (matches (do_table o) (tm_table_name tm)) = negb (passes tm).
  Proof.
    unfold passes, selected, matches. rewrite <- negb_andb. reflexivity.
  Qed.

  Definition step_of (st : dml_state) (ls : list line) : list bytes * option dml_state :=
    let '(out, b) := cut (do_limit o) (dm_rows st) ls in
    (map text out, if b then None else Some (mk_dml (dm_tbls st) (dm_skip st) (dm_rows st + n_stmts ls))).
  Lemma counted st l : print_counted o st l = step_of st (map LStmt l).
  Proof.
    unfold print_counted, step_of. rewrite print_stmts_cut. destruct (cut _ _ (map LStmt l)) as [out []]; reflexivity.
  Qed.
  (** a row event prints its lines *)
  Lemma rows_event recent st c h0 data d h : knows recent st -> fst (rows_reader c data) = Ok d ->
    event st (mk_event (rows_kind c) h0 data) h =
    (match earliest recent (rd2_table_id d) with
     | Some tm => if passes tm then rmap (step_of st) (row_lines fmt_f32 fmt_f64 defs_of c d (h_next_pos h0) tm) else Ok ([], Some st)
     | None => Ok ([], Some st)
     end, h).
  Proof.
    intros K R. unfold event, dml_event, ilift. destruct c; cbn [rows_kind rows_reader ev_kind ev_data ev_header] in *; f_equal.
    - unfold dml_insert. rewrite R. cbn [rbind]. rewrite (with_table_knows recent) by exact K.
      destruct (earliest recent (rd2_table_id d)) as [tm|]; [|reflexivity]. destruct (passes tm); [|reflexivity].
      unfold row_lines, meta_for. cbn [mt_metas mt_db mt_tbl mt_defs].
      destruct (rows_of d (tm_col_metas tm)) as [rows| | |]; try reflexivity. cbn [rbind].
      destruct (sql_from_insert _ _ rows _) as [q| | |]; try reflexivity. cbn [rbind].
      destruct (sql_list fmt_f32 fmt_f64 q) as [l| | |]; try reflexivity. apply (f_equal Ok), counted.
    - unfold dml_update. rewrite R. cbn [rbind]. rewrite (with_table_knows recent) by exact K.
      destruct (earliest recent (rd2_table_id d)) as [tm|]; [|reflexivity]. destruct (passes tm); [|reflexivity].
      unfold row_lines, meta_for, no_key_note. cbn [mt_metas mt_db mt_tbl mt_defs].
      destruct (update_rows_of d (tm_col_metas tm)) as [rows| | |]; try reflexivity. cbn [rbind].
      rewrite key_exists_keyed. destruct (existsb keyed _); cbn [negb].
      + destruct (sql_from_update _ _ rows _) as [q| | |]; try reflexivity. cbn [rbind].
        destruct (sql_list fmt_f32 fmt_f64 q) as [l| | |]; try reflexivity. apply (f_equal Ok), counted.
      + apply (f_equal Ok). unfold step_of. cbn [cut map text n_stmts]. rewrite N.add_0_r. destruct st; reflexivity.
    - unfold dml_delete. rewrite R. cbn [rbind]. rewrite (with_table_knows recent) by exact K.
      destruct (earliest recent (rd2_table_id d)) as [tm|]; [|reflexivity]. destruct (passes tm); [|reflexivity].
      unfold row_lines, meta_for. cbn [mt_metas mt_db mt_tbl mt_defs].
      destruct (rows_of d (tm_col_metas tm)) as [rows| | |]; try reflexivity. cbn [rbind].
      destruct (sql_from_delete _ _ rows _) as [q| | |]; try reflexivity. cbn [rbind].
      destruct (sql_list fmt_f32 fmt_f64 q) as [l| | |]; try reflexivity. apply (f_equal Ok), counted.
  Qed.
  Lemma knows_same recent it st n : knows recent st ->
    match it with IRows _ _ _ _ | IOther => True | _ => False end ->
    knows (it :: recent) (mk_dml (dm_tbls st) (dm_skip st) n).
  Proof. intros K H id. specialize (K id). destruct it; try contradiction; exact K. Qed.
  Lemma knows_known recent id tm st t : knows recent st -> earliest recent id = Some t -> knows (IMap id tm :: recent) st.
  Proof.
    intros K E i. specialize (K i). cbn [earliest]. destruct (earliest recent i) eqn:E'; [exact K|].
    destruct (N.eqb_spec id i) as [->|]; [congruence|exact K].
  Qed.
  Lemma knows_skip recent id tm st : knows recent st -> earliest recent id = None -> passes tm = false ->
    knows (IMap id tm :: recent) (mk_dml (dm_tbls st) (id :: dm_skip st) (dm_rows st)).
  Proof.
    intros K E P i. specialize (K i). cbn [earliest dm_tbls dm_skip]. unfold skips in *. cbn [existsb].
    destruct (N.eqb_spec id i) as [->|N].
    - rewrite E in *. rewrite P, N.eqb_refl. destruct K. auto.
    - assert (Q : (i =? id) = false) by (apply N.eqb_neq; congruence). rewrite Q. cbn [orb].
      destruct (earliest recent i); exact K.
  Qed.
  Lemma knows_add recent id tm st : knows recent st -> earliest recent id = None -> passes tm = true ->
    knows (IMap id tm :: recent) (mk_dml ((id, meta_for tm) :: dm_tbls st) (dm_skip st) (dm_rows st)).
  Proof.
    intros K E P i. specialize (K i). cbn [earliest dm_tbls dm_skip]. unfold find_table in *. cbn [find fst].
    destruct (N.eqb_spec id i) as [->|N].
    - rewrite E in *. rewrite P. destruct K. auto.
    - destruct (earliest recent i); exact K.
  Qed.

  (** one event *)
  Definition item_lines (recent : list item) (it : item) : res (list line) :=
    match it with
    | IRows c id d next_pos =>
        match earliest recent id with
        | Some tm => if passes tm then row_lines fmt_f32 fmt_f64 defs_of c d next_pos tm else Ok []
        | None => Ok []
        end
    | _ => Ok []
    end.
  Definition item_lookup (recent : list item) (it : item) : list table_map :=
    match it with
    | IMap id tm => match earliest recent id with None => if passes tm then [tm] else [] | Some _ => [] end
    | _ => []
    end.
  Lemma lines_cons recent it items : lines recent (it :: items) =
    rbind (item_lines recent it) (fun l => rmap (app l) (lines (it :: recent) items)).
  Proof. reflexivity. Qed.
  Lemma lookups_cons recent it items : asks_for recent (it :: items) = item_lookup recent it ++ asks_for (it :: recent) items.
  Proof. reflexivity. Qed.
  Let answered := tables_answered defs_of.
  Lemma answered_nil h : accepting (c_ws h) -> answered h [] (delivered (c_rd h)).
  Proof. intros H. exists []. splits; auto. exists []. split; [constructor|reflexivity]. Qed.
  Lemma asked_nil h : asked h h [].
  Proof. exists []. split; [|constructor]. exists []. split; [constructor|]. rewrite app_nil_r. reflexivity. Qed.
  Lemma asked_app h h1 h2 t1 t2 : c_cap h1 = c_cap h -> asked h h1 t1 -> asked h1 h2 t2 -> asked h h2 (t1 ++ t2).
  Proof.
    intros E (m1 & A1 & F1) (m2 & A2 & F2). exists (m1 ++ m2). rewrite E in F2.
    split; [eapply commanded_trans; eassumption|]. rewrite flat_map_app. apply Forall2_app; assumption.
  Qed.
  Lemma awaits_app h p1 p2 d : awaits h (p1 ++ p2) d -> exists d1, awaits h p1 d1 /\ forall h', delivered (c_rd h') = d1 -> awaits h' p2 d.
  Proof.
    intros (w & Hw & Hd). destruct (messages_wire_app _ _ _ Hw) as (w1 & w2 & W1 & W2 & ->). exists (w2 ++ d). split.
    - exists w1. split; [exact W1|]. rewrite Hd, app_assoc. reflexivity.
    - intros h' E. exists w2. auto.
  Qed.
  Lemma answered_app h t1 t2 d : answered h (t1 ++ t2) d ->
    exists d1, answered h t1 d1 /\ forall h', c_cap h' = c_cap h -> accepting (c_ws h') -> delivered (c_rd h') = d1 -> answered h' t2 d.
  Proof.
    intros (ans & F & Hn & Ha & Hw). apply Forall2_app_inv_l in F. destruct F as (a1 & a2 & F1 & F2 & ->).
    rewrite concat_app in Hw. destruct (awaits_app _ _ _ _ Hw) as (d1 & W1 & W2). apply Forall_app in Hn. destruct Hn as [N1 N2].
    exists d1. split; [exists a1; auto|]. intros h' E A D. exists a2. rewrite E. auto.
  Qed.
  Lemma lookup_table h tm d : answered h [tm] d ->
    exists h', (_ <~ conn_init_db checks (tm_schema_name tm) ;; conn_field_list checks (tm_table_name tm) (str "%")) h =
      (Ok (defs_of (tm_schema_name tm) (tm_table_name tm)), h') /\ asked h h' [tm] /\
      delivered (c_rd h') = d /\ accepting (c_ws h') /\ c_cap h' = c_cap h.
  Proof.
    intros (ans & F & Hn & Ha & Hw). inversion F as [|? ms ? l (Hd & m1 & m2 & Hok & Heof & ->) F0]; subst. inversion F0; subst.
    cbn [concat] in Hw. rewrite app_nil_r in Hw. inversion Hn as [|? ? (N1 & N2 & N3) _]; subst.
    assert (C : conversation (c_cap h) (_ <~ conn_init_db checks (tm_schema_name tm) ;; conn_field_list checks (tm_table_name tm) (str "%"))
      ([asks (c_cap h) (RqInitDb (tm_schema_name tm))] ++ [asks (c_cap h) (RqFieldList (tm_table_name tm) (str "%"))])
      ([m1] ++ map field_wire (defs_of (tm_schema_name tm) (tm_table_name tm)) ++ [m2])
      (Ok (defs_of (tm_schema_name tm) (tm_table_name tm)))).
    { eapply (conv_bind (c_cap h) _ (fun _ => conn_field_list checks (tm_table_name tm) (str "%"))).
      - apply (simple_ok _ checks _ _ _ (sc_init_db checks (tm_schema_name tm) ltac:(right; change (2 ^ 31) with 2147483648; lia)) Hok).
      - apply (field_list_conv (c_cap h) checks (tm_table_name tm) (str "%") _ m2 None N1); auto.
        right. rewrite app_length. change (2 ^ 31) with 2147483648. change (length (str "%")) with 1%nat. lia. }
    destruct (C h d eq_refl Ha Hw) as (h' & ms & E & O & F2 & D & A & K & _). exists h'. splits; auto. exists ms. split; [exact O|exact F2].
  Qed.
  Lemma table_map_event recent st h0 data dd tm h d : knows recent st ->
    fst (read_table_map_data data) = Ok dd -> table_map_of dd = Ok tm ->
    answered h (item_lookup recent (IMap (tmd_table_id dd) tm)) d ->
    exists st' h', event st (mk_event KTableMap h0 data) h = (Ok ([], Some st'), h') /\
      knows (IMap (tmd_table_id dd) tm :: recent) st' /\ dm_rows st' = dm_rows st /\
      asked h h' (item_lookup recent (IMap (tmd_table_id dd) tm)) /\ delivered (c_rd h') = d /\ accepting (c_ws h') /\ c_cap h' = c_cap h.
  Proof.
    intros K R T A. unfold event, dml_event. cbn [ev_kind ev_data]. unfold dml_table_map.
    rewrite (ilift_bind _ _ _ _ R). cbv zeta. cbn [item_lookup] in *. pose proof (K (tmd_table_id dd)) as Ki.
    assert (Same : answered h [] d -> delivered (c_rd h) = d /\ accepting (c_ws h)).
    { intros (ans & F & _ & Ha & Hw). inversion F; subst. cbn [concat] in Hw. apply awaits_nil in Hw. auto. }
    destruct (earliest recent (tmd_table_id dd)) as [t|] eqn:E.
    - exists st, h. destruct (Same A). assert (X : find_table (tmd_table_id dd) (dm_tbls st) <> None \/ skips (tmd_table_id dd) (dm_skip st) = true).
      { destruct (passes t); destruct Ki as [-> ->]; [left; discriminate|right; reflexivity]. }
      splits; auto using asked_nil; [|eapply knows_known; eauto].
      destruct (find_table _ _); [reflexivity|]. destruct X as [X|X]; [contradiction|]. rewrite X. reflexivity.
    - destruct Ki as [-> ->]. rewrite (ilift_bind _ _ _ _ T). rewrite matches_selected. destruct (passes tm) eqn:P; cbn [negb].
      + destruct (lookup_table h tm d A) as (h' & E1 & E2 & E3 & E4 & E5).
        exists (mk_dml ((tmd_table_id dd, meta_for tm) :: dm_tbls st) (dm_skip st) (dm_rows st)), h'. splits; auto using knows_add.
        revert E1. unfold ibind. destruct (conn_init_db checks (tm_schema_name tm) h) as [[u| | |] h1]; try discriminate.
        intros ->. reflexivity.
      + destruct (Same A). exists (mk_dml (dm_tbls st) (tmd_table_id dd :: dm_skip st) (dm_rows st)), h.
        splits; auto using asked_nil, knows_skip.
  Qed.

  Lemma other_event st k h0 data h : ~ In k [KTableMap; KWriteRowsV2; KUpdateRowsV2; KDeleteRowsV2; KRotate] ->
    event st (mk_event k h0 data) h = (Ok ([], Some st), h).
  Proof.
    intros H. unfold event, dml_event. cbn [ev_kind]. destruct k; try reflexivity; exfalso; apply H; cbn [In]; auto 6.
  Qed.
  Definition goes_on (it : item) : Prop := it = IRotate -> do_until_now o = true.
  Lemma step recent st e it h d l : means e it -> goes_on it -> knows recent st -> item_lines recent it = Ok l ->
    answered h (item_lookup recent it) d ->
    let '(out, b) := cut (do_limit o) (dm_rows st) l in
    exists st' h', event st e h = (Ok (map text out, if b then None else Some st'), h') /\
      knows (it :: recent) st' /\ dm_rows st' = dm_rows st + n_stmts l /\
      asked h h' (item_lookup recent it) /\ delivered (c_rd h') = d /\ accepting (c_ws h') /\ c_cap h' = c_cap h.
  Proof.
    intros M G K L A.
    assert (Same : answered h [] d -> delivered (c_rd h) = d /\ accepting (c_ws h)).
    { intros (ans & F & _ & Ha & Hw). inversion F; subst. cbn [concat] in Hw. apply awaits_nil in Hw. auto. }
    destruct M as [h0 data dd tm R T|c h0 data dd R|h0 data|k h0 data Hk].
    - cbn [item_lines] in L. injection L as <-. cbn [cut map n_stmts].
      destruct (table_map_event recent st h0 data dd tm h d K R T A) as (st' & h' & E & X1 & X2 & X3 & X4 & X5 & X6).
      exists st', h'. rewrite N.add_0_r. splits; auto.
    - cbn [item_lines item_lookup] in L, A. destruct (Same A) as [D W].
      assert (E := rows_event recent st c h0 data dd h K R).
      assert (E' : event st (mk_event (rows_kind c) h0 data) h = (Ok (step_of st l), h)).
      { rewrite E. destruct (earliest recent (rd2_table_id dd)) as [tm|]; [destruct (passes tm)|].
        - rewrite L. reflexivity.
        - injection L as <-. unfold step_of. cbn [cut map n_stmts]. rewrite N.add_0_r. destruct st; reflexivity.
        - injection L as <-. unfold step_of. cbn [cut map n_stmts]. rewrite N.add_0_r. destruct st; reflexivity. }
      unfold step_of in E'. destruct (cut (do_limit o) (dm_rows st) l) as [out b].
      exists (mk_dml (dm_tbls st) (dm_skip st) (dm_rows st + n_stmts l)), h. splits; auto using asked_nil.
    - cbn [item_lines item_lookup] in L, A. injection L as <-. destruct (Same A) as [D W]. cbn [cut map n_stmts].
      exists (mk_dml [] [] (dm_rows st)), h. unfold event, dml_event. cbn [ev_kind]. rewrite (G eq_refl), N.add_0_r.
      splits; auto using asked_nil. intros i. cbn [earliest]. split; reflexivity.
    - cbn [item_lines item_lookup] in L, A. injection L as <-. destruct (Same A) as [D W]. cbn [cut map n_stmts].
      exists (mk_dml (dm_tbls st) (dm_skip st) (dm_rows st)), h. rewrite other_event by exact Hk. rewrite N.add_0_r.
      splits; auto using asked_nil. destruct st; reflexivity.
  Qed.
  Lemma scope_cons it items : goes_on it -> scope (do_until_now o) (it :: items) = it :: scope (do_until_now o) items.
  Proof. intros G. destruct it; cbn [scope]; try reflexivity. rewrite (G eq_refl). reflexivity. Qed.
  Lemma goes_on_dec it : goes_on it \/ it = IRotate /\ do_until_now o = false.
  Proof. destruct it; try (left; intros H; discriminate H). destruct (do_until_now o) eqn:E; [left; intros _; exact E|right; auto]. Qed.
  Lemma loop_step fuel st c h e c1 out r h1 : next_event crc s c = (Ok (Some e), c1) -> event st e h = (Ok (out, r), h1) ->
    loop (S fuel) s st c h = match r with
      | None => (Ok tt, out, c1, h1)
      | Some st => let '(r, out', c, h) := loop fuel s st c1 h1 in (r, out ++ out', c, h)
      end.
  Proof.
    intros N E. unfold loop. cbn [dml_loop]. rewrite N. unfold event in E. rewrite E. destruct r; reflexivity.
  Qed.
  Definition of_last (last : res (option Event.event)) : res unit :=
    match last with Ok _ => Ok tt | Err e => Err e | Panic p => Panic p | Loop => Loop end.
  Lemma map_text_app a b : map text (a ++ b) = map text a ++ map text b.
  Proof. apply map_app. Qed.

  (** all items, without stopping *)
  Lemma loop_prefix items : forall evs c c1 recent st h ls d, Forall2 means evs items -> chain c evs c1 ->
    Forall goes_on items -> knows recent st -> lines recent items = Ok ls ->
    (do_limit o = 0 \/ dm_rows st + n_stmts ls < do_limit o) -> answered h (asks_for recent items) d ->
    exists st' h', knows (rev items ++ recent) st' /\ dm_rows st' = dm_rows st + n_stmts ls /\
      asked h h' (asks_for recent items) /\ delivered (c_rd h') = d /\ accepting (c_ws h') /\ c_cap h' = c_cap h /\
      forall fuel, loop (length evs + fuel) s st c h =
        let '(r, out, c2, h2) := loop fuel s st' c1 h' in (r, map text ls ++ out, c2, h2).
  Proof.
    induction items as [|it items IH]; intros evs c c1 recent st h ls d M C G K L B A; inversion M as [|e ? evs' ? M1 M2]; subst.
    - inversion C; subst. injection L as <-. exists st, h. cbn [n_stmts rev app map length Nat.add]. rewrite N.add_0_r.
      destruct A as (ans & F & _ & Ha & Hw). inversion F; subst. cbn [concat] in Hw. apply awaits_nil in Hw.
      splits; auto using asked_nil. intros fuel. destruct (loop fuel s st c1 h) as [[[r out] c2] h2]. reflexivity.
    - inversion C as [|? ? cm ? ? N C']; subst. inversion G as [|? ? G1 G2]; subst.
      rewrite lines_cons in L. destruct (item_lines recent it) as [l| | |] eqn:L1; try discriminate L. cbn [rbind] in L.
      destruct (lines (it :: recent) items) as [l2| | |] eqn:L2; try discriminate L. injection L as <-.
      rewrite n_stmts_app in B. rewrite lookups_cons in A. destruct (answered_app _ _ _ _ A) as (d1 & A1 & A2).
      pose proof (step recent st e it h d1 l M1 G1 K L1 A1) as S.
      pose proof (cut_spec (do_limit o) l (dm_rows st) ltac:(destruct B; [left; assumption|right; lia])) as Cs.
      destruct (cut (do_limit o) (dm_rows st) l) as [out b]. destruct S as (st' & h' & E & K' & R' & X1 & X2 & X3 & X4).
      destruct b.
      { destruct Cs as (? & ? & ? & ? & rest & _ & El). exfalso. rewrite El, n_stmts_app in B. lia. } destruct Cs as [-> _].
      destruct (IH evs' cm c1 (it :: recent) st' h' l2 d M2 C' G2 K' L2) as (st2 & h2 & K2 & R2 & Y1 & Y2 & Y3 & Y4 & Y5).
      { rewrite R'. destruct B; [left; assumption|right; lia]. }
      { apply A2; auto. }
      exists st2, h2. rewrite lookups_cons, n_stmts_app. splits; auto; try congruence; try lia.
      + cbn [rev]. rewrite <- app_assoc. exact K2.
      + eapply asked_app; eauto.
      + intros fuel. cbn [length Nat.add]. rewrite (loop_step _ _ _ _ _ _ _ _ _ N E), Y5.
        destruct (loop fuel s st2 c1 h2) as [[[r out2] c2] h3]. rewrite map_text_app, app_assoc. reflexivity.
  Qed.
  Lemma first_stop (P : item -> Prop) items : (forall it, P it \/ ~ P it) ->
    Forall P items \/ exists a it b, items = a ++ it :: b /\ Forall P a /\ ~ P it.
  Proof.
    intros D. induction items as [|it items IH]; [left; constructor|]. destruct (D it) as [H|H].
    - destruct IH as [F|(a & x & b & -> & F & N)]; [left; auto|right]. exists (it :: a), x, b. auto.
    - right. exists [], it, items. auto.
  Qed.
  Lemma scope_all items : Forall goes_on items -> scope (do_until_now o) items = items.
  Proof. induction 1 as [|it items G F IH]; [reflexivity|]. rewrite scope_cons, IH; auto. Qed.
  Lemma scope_rotate a b : Forall goes_on a -> do_until_now o = false -> scope (do_until_now o) (a ++ IRotate :: b) = a.
  Proof.
    intros H U. induction H as [|it a G F IH]; cbn [app].
    - cbn [scope]. rewrite U. reflexivity.
    - rewrite scope_cons, IH; auto.
  Qed.
  Lemma lines_app a : forall recent b, lines recent (a ++ b) =
    rbind (lines recent a) (fun l => rmap (app l) (lines (rev a ++ recent) b)).
  Proof.
    induction a as [|it a IH]; intros recent b.
    - cbn [app rev]. change (lines recent []) with (Ok (@nil line)). cbn [rbind]. destruct (lines recent b); reflexivity.
    - cbn [app rev]. rewrite !lines_cons, <- app_assoc. destruct (item_lines recent it) as [l| | |]; try reflexivity. cbn [rbind].
      rewrite IH. destruct (lines (it :: recent) a) as [l1| | |]; try reflexivity. cbn [rbind rmap].
      unfold rmap. cbn [rbind app]. destruct (lines (rev a ++ it :: recent) b); try reflexivity. cbn [rbind]. rewrite app_assoc. reflexivity.
  Qed.
  Lemma lookups_app a : forall recent b, asks_for recent (a ++ b) = asks_for recent a ++ asks_for (rev a ++ recent) b.
  Proof.
    induction a as [|it a IH]; intros recent b; [reflexivity|]. cbn [app rev]. rewrite !lookups_cons, IH, <- !app_assoc. reflexivity.
  Qed.
  Lemma chain_app evs1 : forall c evs2 c2, chain c (evs1 ++ evs2) c2 -> exists c1, chain c evs1 c1 /\ chain c1 evs2 c2.
  Proof.
    induction evs1 as [|e evs1 IH]; intros c evs2 c2 H; [exists c; split; [constructor|exact H]|].
    inversion H as [|? ? cm ? ? N C]; subst. destruct (IH _ _ _ C) as (c1 & H1 & H2). exists c1. split; [econstructor; eauto|exact H2].
  Qed.
  Lemma chain_io evs : forall c c1, chain c evs c1 -> io_pulls (next_event crc s) (length evs) c = (returned evs, c1).
  Proof.
    induction evs as [|e evs IH]; intros c c1 H; inversion H as [|? ? cm ? ? N C]; subst; [reflexivity|].
    cbn [length io_pulls]. rewrite N, (IH _ _ C). reflexivity.
  Qed.

  Lemma reach_limit sc : forall recent ls n, lines recent sc = Ok ls -> n < do_limit o -> do_limit o <= n + n_stmts ls ->
    exists a it b la l lb, sc = a ++ it :: b /\ lines recent a = Ok la /\ item_lines (rev a ++ recent) it = Ok l /\
      lines (it :: rev a ++ recent) b = Ok lb /\ ls = la ++ l ++ lb /\
      n + n_stmts la < do_limit o /\ do_limit o <= n + n_stmts la + n_stmts l.
  Proof.
    induction sc as [|it sc IH]; intros recent ls n L H1 H2; [injection L as <-; cbn [n_stmts] in H2; lia|].
    rewrite lines_cons in L. destruct (item_lines recent it) as [l| | |] eqn:E; try discriminate L. cbn [rbind] in L.
    destruct (lines (it :: recent) sc) as [l2| | |] eqn:E2; try discriminate L. injection L as <-. rewrite n_stmts_app in H2.
    destruct (N.lt_ge_cases (n + n_stmts l) (do_limit o)) as [Q|Q].
    - destruct (IH (it :: recent) l2 (n + n_stmts l) E2 Q ltac:(lia)) as (a & it' & b & la & l' & lb & -> & A1 & A2 & A3 & -> & A4 & A5).
      exists (it :: a), it', b, (l ++ la), l', lb. rewrite lines_cons, E. cbn [rbind]. rewrite A1, n_stmts_app.
      cbn [rev]. rewrite <- !app_assoc. splits; auto; lia.
    - exists [], it, sc, [], l, l2. cbn [n_stmts rev app]. splits; auto; lia.
  Qed.
  Lemma knows_init : knows [] (mk_dml [] [] 0).
  Proof. intros i. split; reflexivity. Qed.
  Lemma forall2_app_inv {A B} (R : A -> B -> Prop) l b1 b2 : Forall2 R l (b1 ++ b2) ->
    exists a1 a2, l = a1 ++ a2 /\ Forall2 R a1 b1 /\ Forall2 R a2 b2.
  Proof. intros H. apply Forall2_app_inv_r in H. destruct H as (a1 & a2 & H1 & H2 & ->). eauto. Qed.
  Lemma scope_prefix items : exists rest, items = scope (do_until_now o) items ++ rest /\ Forall goes_on (scope (do_until_now o) items) /\
    (rest = [] \/ exists b, rest = IRotate :: b /\ do_until_now o = false).
  Proof.
    induction items as [|it items IH]; [exists []; splits; [reflexivity|constructor|auto]|].
    destruct IH as (rest & E & F & H). destruct (goes_on_dec it) as [G|[-> U]].
    - rewrite scope_cons by exact G. exists rest. splits; [cbn [app]; congruence|constructor; auto|exact H].
    - cbn [scope]. rewrite U. exists (IRotate :: items). splits; [reflexivity|constructor|right; eauto].
  Qed.

  (** what the loop does with a history *)
  Lemma loop_main items evs c c1 cx last h ls d fuel : Forall2 means evs items -> chain c evs c1 -> next_event crc s c1 = (last, cx) ->
    match last with Ok None | Err _ => True | _ => False end ->
    let sc := scope (do_until_now o) items in
    lines [] sc = Ok ls -> answered h (asks_for [] sc) d -> (length evs < fuel)%nat ->
    exists out r c' h' done rest, loop fuel s (mk_dml [] [] 0) c h = (r, map text out, c', h') /\
      limited (do_limit o) ls out /\ sc = done ++ rest /\ asked h h' (asks_for [] done) /\
      ((do_limit o <> 0 /\ do_limit o <= n_stmts ls /\ r = Ok tt /\
          io_pulls (next_event crc s) (length done) c = (returned (firstn (length done) evs), c') /\
          exists before it lb, done = before ++ [it] /\ lines [] before = Ok lb /\ n_stmts lb < do_limit o) \/
       ((do_limit o = 0 \/ n_stmts ls < do_limit o) /\ done = sc /\ delivered (c_rd h') = d /\
          (sc = items /\ r = of_last last /\ c' = cx \/
           (length sc < length items)%nat /\ r = Ok tt /\
             io_pulls (next_event crc s) (S (length sc)) c = (returned (firstn (S (length sc)) evs), c')))).
  Proof.
    intros M C N1 Hl sc L A Hf. subst sc. destruct (scope_prefix items) as (tl & Ei & G & Ht).
    set (sc := scope (do_until_now o) items) in *. clearbody sc. subst items.
    destruct (forall2_app_inv _ _ _ _ M) as (e1 & e2 & -> & M1 & M2). destruct (chain_app _ _ _ _ C) as (cm & C1 & C2).
    destruct (N.eq_dec (do_limit o) 0) as [Z|Z]; [|destruct (N.lt_ge_cases (n_stmts ls) (do_limit o)) as [Q|Q]].
    3:{ (* limit *)
      destruct (reach_limit sc [] ls 0 L ltac:(lia) ltac:(lia)) as (a & it & b & la & l & lb & -> & L1 & L2 & L3 & -> & Q1 & Q2).
      rewrite app_nil_r in *. rewrite N.add_0_l in *.
      apply Forall_app in G. destruct G as [G1 G2]. pose proof (Forall_inv G2) as G3.
      destruct (forall2_app_inv _ _ _ _ M1) as (ea & eb & -> & Ma & Mb). inversion Mb as [|e it0 eb' b0 Me Mb']; subst it0 b0 eb.
      destruct (chain_app _ _ _ _ C1) as (ca & Ca & Cb). inversion Cb as [|? ? cb ? ? Ne Cb']; subst.
      rewrite lookups_app, lookups_cons in A. rewrite app_nil_r in A.
      destruct (answered_app _ _ _ _ A) as (d1 & A1 & A2).
      destruct (loop_prefix a ea c ca [] (mk_dml [] [] 0) h la d1 Ma Ca G1 knows_init L1 ltac:(cbn [dm_rows]; right; lia) A1)
        as (st' & h1 & K1 & R1 & X1 & X2 & X3 & X4 & X5). rewrite app_nil_r in K1. cbn [dm_rows] in R1. rewrite N.add_0_l in R1.
      destruct (answered_app _ _ _ _ (A2 h1 X4 X3 X2)) as (d2 & A3 & _).
      pose proof (step (rev a) st' e it h1 d2 l Me G3 K1 L2 A3) as S.
      pose proof (cut_spec (do_limit o) l (dm_rows st') ltac:(right; lia)) as Cs.
      assert (Ct : cut (do_limit o) 0 (la ++ l ++ lb) = (la ++ fst (cut (do_limit o) (dm_rows st') l), true)).
      { rewrite cut_app. pose proof (cut_spec (do_limit o) la 0 ltac:(right; lia)) as C0.
        destruct (cut (do_limit o) 0 la) as [o1 b1]. destruct b1; [destruct C0 as (_ & C0 & p & q & rr & _ & ->); exfalso|].
        { rewrite n_stmts_app in Q1. lia. }
        destruct C0 as [-> _]. rewrite cut_app, N.add_0_l, R1. rewrite R1 in Cs.
        destruct (cut (do_limit o) (n_stmts la) l) as [o2 b2]. destruct b2; [reflexivity|]. destruct Cs as (_ & [Cs|Cs]); lia. }
      pose proof (cut_limited (do_limit o) (la ++ l ++ lb)) as Lim. rewrite Ct in Lim. cbn [fst] in Lim.
      destruct (cut (do_limit o) (dm_rows st') l) as [out bb]. destruct S as (st2 & h2 & E & K2 & R2 & Y1 & Y2 & Y3 & Y4).
      destruct bb; [|destruct Cs as (_ & [Cs|Cs]); lia]. cbn [fst] in *.
      exists (la ++ out), (Ok tt), cb, h2, (a ++ [it]), b. splits.
      - pose proof (Forall2_length Ma). cbn [length] in Hf. rewrite !app_length in Hf. cbn [length] in Hf.
        replace fuel with (length ea + S (fuel - length ea - 1))%nat by lia.
        rewrite X5, (loop_step _ _ _ _ _ _ _ _ _ Ne E), map_text_app. reflexivity.
      - exact Lim.
      - rewrite <- app_assoc. reflexivity.
      - rewrite lookups_app, app_nil_r. eapply asked_app; eauto. rewrite lookups_cons. change (asks_for (it :: rev a) []) with (@nil table_map).
        rewrite app_nil_r. exact Y1.
      - left. rewrite !n_stmts_app in Q. splits; auto.
        + rewrite !n_stmts_app. lia.
        + pose proof (Forall2_length Ma) as La. rewrite app_length. cbn [length].
          replace (firstn (length a + 1) ((ea ++ e :: eb') ++ e2)) with (ea ++ [e]).
          2:{ rewrite <- La, <- app_assoc. rewrite firstn_app_2. reflexivity. }
          rewrite <- La. replace (length ea + 1)%nat with (length (ea ++ [e])) by (rewrite app_length; reflexivity).
          apply chain_io. clear - Ca Ne. induction Ca; [econstructor; [exact Ne|constructor]|]. cbn [app]. econstructor; eauto.
        + exists a, it, la. splits; auto. }
    all: assert (B : do_limit o = 0 \/ n_stmts ls < do_limit o) by auto;
      destruct (loop_prefix sc e1 c cm [] (mk_dml [] [] 0) h ls d M1 C1 G knows_init L B A)
        as (st' & h1 & K1 & R1 & X1 & X2 & X3 & X4 & X5);
      assert (Lim : limited (do_limit o) ls ls) by
        (unfold limited; destruct B as [B|B]; [rewrite B; reflexivity|apply N.ltb_lt in B; rewrite B, orb_true_r; reflexivity]).
    all: pose proof (Forall2_length M1) as Le1; rewrite app_length in Hf.
    all: destruct Ht as [->|(b & -> & U)].
    1,3: inversion M2; subst; inversion C2; subst; rewrite app_nil_r;
      exists ls, (of_last last), cx, h1, sc, []; splits; auto;
      [replace fuel with (length e1 + S (fuel - length e1 - 1))%nat by lia;
       rewrite X5; unfold loop; cbn [dml_loop]; rewrite N1;
       destruct last as [[?|]| | |]; try contradiction; cbn [of_last]; rewrite app_nil_r; reflexivity
      |rewrite app_nil_r; reflexivity
      |right; splits; auto; left; rewrite app_nil_r; auto].
    all: inversion M2 as [|e ? e2' ? Me M2']; subst; inversion C2 as [|? ? cb ? ? Ne C2']; subst;
      inversion Me as [| |h0 data|]; subst.
    all: exists ls, (Ok tt), cb, h1, sc, []; splits; auto;
      [|rewrite app_nil_r; reflexivity|right; splits; auto; right; splits; auto].
    all: try (rewrite app_length; cbn [length]; lia).
    all: try (cbn [length] in Hf; replace fuel with (length e1 + S (fuel - length e1 - 1))%nat by lia;
      rewrite X5, (loop_step _ _ _ _ _ _ [] None h1 Ne ltac:(unfold event, dml_event; cbn [ev_kind]; rewrite U; reflexivity));
      rewrite app_nil_r; reflexivity).
    all: rewrite <- Le1; replace (S (length e1)) with (length e1 + 1)%nat by lia; rewrite firstn_app_2; cbn [firstn];
      replace (length e1 + 1)%nat with (length (e1 ++ [mk_event KRotate h0 data])) by (rewrite app_length; reflexivity);
      apply chain_io; clear - C1 Ne; induction C1; [econstructor; [exact Ne|constructor]|]; cbn [app]; econstructor; eauto.
  Qed.

  (** a failing event *)
  Lemma failing_event recent st e h r : knows recent st -> fails fmt_f32 fmt_f64 passes defs_of recent e r ->
    exists x, event st e h = (x, h) /\ failure x r.
  Proof.
    intros K F. destruct F as [h0 data r F|h0 data d r R E F|c h0 data r F|c h0 data d tm r R E P F].
    - unfold event, dml_event. cbn [ev_kind ev_data]. unfold dml_table_map, ibind, ilift.
      destruct (fst (read_table_map_data data)) as [d|e|p|]; [contradiction| | |]; eauto.
    - unfold event, dml_event. cbn [ev_kind ev_data]. unfold dml_table_map. rewrite (ilift_bind _ _ _ _ R). cbv zeta.
      pose proof (K (tmd_table_id d)) as Ki. rewrite E in Ki. destruct Ki as [-> ->]. unfold ibind, ilift.
      destruct (table_map_of d) as [tm|e|p|]; [contradiction| | |]; eauto.
    - unfold event, dml_event. destruct c; cbn [rows_kind rows_reader ev_kind ev_data ev_header] in *;
        unfold dml_insert, dml_update, dml_delete, ilift;
        match goal with |- context [rbind ?x] => destruct x as [d|e|p|]; [contradiction| | |]; eexists; (split; [reflexivity|exact F]) end.
    - rewrite (rows_event recent st c h0 data d h K R), E, P.
      destruct (row_lines fmt_f32 fmt_f64 defs_of c d (h_next_pos h0) tm) as [l|e|p|]; [contradiction| | |]; eexists; (split; [reflexivity|exact F]).
  Qed.
  Lemma loop_fail fuel st c h e c1 x h1 r : next_event crc s c = (Ok (Some e), c1) -> event st e h = (x, h1) -> failure x r ->
    loop (S fuel) s st c h = (r, [], c1, h1).
  Proof.
    intros N E F. unfold loop. cbn [dml_loop]. rewrite N. unfold event in E. rewrite E.
    destruct x as [y|y|y|]; [contradiction| | |]; cbn in F; subst; reflexivity.
  Qed.
  Lemma loop_failure items evs c c1 h ls d e c2 r fuel : Forall2 means evs items -> chain c evs c1 -> Forall goes_on items ->
    lines [] items = Ok ls -> (do_limit o = 0 \/ n_stmts ls < do_limit o) -> answered h (asks_for [] items) d ->
    next_event crc s c1 = (Ok (Some e), c2) -> fails fmt_f32 fmt_f64 passes defs_of (rev items) e r -> (length evs < fuel)%nat ->
    exists h', loop fuel s (mk_dml [] [] 0) c h = (r, map text ls, c2, h') /\ asked h h' (asks_for [] items) /\ delivered (c_rd h') = d.
  Proof.
    intros M C G L B A N F Hf.
    destruct (loop_prefix items evs c c1 [] (mk_dml [] [] 0) h ls d M C G knows_init L B A) as (st & h1 & K1 & R1 & X1 & X2 & X3 & X4 & X5).
    rewrite app_nil_r in K1. destruct (failing_event _ st e h1 r K1 F) as (x & E & Fx).
    exists h1. splits; auto. replace fuel with (length evs + S (fuel - length evs - 1))%nat by lia.
    rewrite X5, (loop_fail _ _ _ _ _ _ _ _ _ N E Fx), app_nil_r. reflexivity.
  Qed.
  Lemma refusal_conv cap tm qs ps e : names_ok tm -> table_refusal cap tm qs ps e ->
    conversation cap (_ <~ conn_init_db checks (tm_schema_name tm) ;; conn_field_list checks (tm_table_name tm) (str "%")) qs ps (Err e).
  Proof.
    intros (N1 & N2 & N3) R.
    assert (S1 : sendable checks (tm_schema_name tm)) by (right; change (2 ^ 31) with 2147483648; lia).
    assert (S2 : sendable checks (tm_table_name tm ++ str "%")).
    { right. rewrite app_length. change (2 ^ 31) with 2147483648. change (length (str "%")) with 1%nat. lia. }
    destruct R as [m e H|m1 m2 e H1 H2].
    - intros c d Hc Ha Hw. destruct (simple_err cap checks _ _ m e (sc_init_db checks _ S1) H c d Hc Ha Hw) as (c' & ms & E & X).
      exists c', ms. split; [|exact X]. unfold ibind. rewrite E. reflexivity.
    - change [m1; m2] with ([m1] ++ [m2]). unfold table_requests.
      change [asks cap (RqInitDb (tm_schema_name tm)); asks cap (RqFieldList (tm_table_name tm) (str "%"))]
        with ([asks cap (RqInitDb (tm_schema_name tm))] ++ [asks cap (RqFieldList (tm_table_name tm) (str "%"))]).
      eapply (conv_bind cap _ (fun _ => conn_field_list checks (tm_table_name tm) (str "%"))).
      + apply (simple_ok cap checks _ _ m1 (sc_init_db checks _ S1) H1).
      + apply (field_list_conv cap checks (tm_table_name tm) (str "%") [] m2 (Some e) N1 S2 (Forall_nil _)). right. eauto.
  Qed.
  Lemma loop_refused items evs c c1 h ls d h0 data dd tm c2 e fuel qs ps ans d' :
    Forall2 means evs items -> chain c evs c1 -> Forall goes_on items ->
    lines [] items = Ok ls -> (do_limit o = 0 \/ n_stmts ls < do_limit o) ->
    next_event crc s c1 = (Ok (Some (mk_event KTableMap h0 data)), c2) -> fst (read_table_map_data data) = Ok dd -> table_map_of dd = Ok tm ->
    earliest (rev items) (tmd_table_id dd) = None -> passes tm = true -> names_ok tm ->
    answered h (asks_for [] items) d' ->
    messages_wire ps ans -> d' = ans ++ d ->
    table_refusal (c_cap h) tm qs ps e -> (length evs < fuel)%nat ->
    exists h', loop fuel s (mk_dml [] [] 0) c h = (Err e, map text ls, c2, h') /\
      (exists ms, commanded h h' ms /\
         Forall2 (fun rq m => rq m) (flat_map (table_requests (c_cap h)) (asks_for [] items) ++ qs) ms) /\
      delivered (c_rd h') = d.
  Proof.
    intros M C G L B N R T En P Hn A W -> Rf Hf.
    destruct (loop_prefix items evs c c1 [] (mk_dml [] [] 0) h ls _ M C G knows_init L B A) as (st & h1 & K1 & R1 & X1 & X2 & X3 & X4 & X5).
    rewrite app_nil_r in K1. rewrite <- X4 in Rf.
    destruct (refusal_conv _ tm qs ps e Hn Rf h1 d eq_refl X3 ltac:(exists ans; auto)) as (h2 & ms & E & O & F & D & _).
    assert (Ev : event st (mk_event KTableMap h0 data) h1 = (Err e, h2)).
    { unfold event, dml_event. cbn [ev_kind ev_data]. unfold dml_table_map. rewrite (ilift_bind _ _ _ _ R). cbv zeta.
      pose proof (K1 (tmd_table_id dd)) as Ki. rewrite En in Ki. destruct Ki as [-> ->]. rewrite (ilift_bind _ _ _ _ T).
      rewrite matches_selected. fold passes. rewrite P. cbn [negb]. revert E. unfold ibind.
      destruct (conn_init_db checks (tm_schema_name tm) h1) as [[u| | |] h3]; intros E; try discriminate E; try (injection E as -> ->; reflexivity).
      destruct (conn_field_list checks (tm_table_name tm) (str "%") h3) as [[u'| | |] h4]; try discriminate E. injection E as -> ->. reflexivity. }
    exists h2. splits; auto.
    - replace fuel with (length evs + S (fuel - length evs - 1))%nat by lia.
      rewrite X5, (loop_fail _ _ _ _ _ _ _ _ (Err e) N Ev eq_refl), app_nil_r. reflexivity.
    - destruct X1 as (ms1 & O1 & F1). exists (ms1 ++ ms). split; [eapply commanded_trans; eauto|apply Forall2_app; auto].
  Qed.
End Loop.

(** ** fuel *)
Lemma delivered_sched l : (length (delivered l) <= sched_len l)%nat.
Proof.
  induction l as [|[|bs|] l IH]; cbn [delivered sched_len length]; try lia.
  destruct bs as [|b bs]; [cbn [length]; lia|]. cbn [app length]. rewrite app_length. lia.
Qed.
Lemma recv_consumes c p c' : recv_msg c = (Ok p, c') -> (length (delivered (c_rd c')) < length (delivered (c_rd c)))%nat.
Proof.
  intros E. destruct (recv_msg_total c) as [(seqs & p0 & w & rest & c1 & E1 & W & D & D1)|(c1 & E1)]; [|congruence].
  rewrite E in E1. injection E1 as <- <-. apply (message_wire_nonempty (fun x => x) (fun x => x)) in W.
  rewrite D, D1, app_length. lia.
Qed.
Lemma event_consumes crc s c e c' : recv_and_parse_event crc s c = (Ok e, c') -> (length (delivered (c_rd c')) < length (delivered (c_rd c)))%nat.
Proof.
  unfold recv_and_parse_event, ibind. destruct (recv_msg c) as [[p| | |] c1] eqn:E; try discriminate. apply recv_consumes in E.
  destruct p as [|b p]; [discriminate|]. destruct (_ && _); [intros H; injection H as <- <-; exact E|]. destruct (negb _); [discriminate|].
  unfold parse, ilift. destruct (fst (parse_event crc (s_pv4 s) (s_validate s) p)); try discriminate. intros H. injection H as <- <-. exact E.
Qed.
Lemma next_consumes crc s c e c' : next_event crc s c = (Ok (Some e), c') -> (length (delivered (c_rd c')) < length (delivered (c_rd c)))%nat.
Proof.
  unfold next_event. destruct (s_completed s); [discriminate|]. generalize (S (sched_len (c_rd c))). intros n. revert c.
  induction n as [|n IH]; intros c; cbn [next_event_loop]; [discriminate|]. unfold ibind.
  destruct (recv_and_parse_event crc s c) as [[x| | |] c1] eqn:E; try discriminate. apply event_consumes in E.
  destruct x; [intros H; injection H as <- <-; exact E| |discriminate]. intros H. apply IH in H. lia.
Qed.
Lemma chain_fuel crc s evs : forall c c1, chain crc s c evs c1 -> (length evs < S (sched_len (c_rd c)))%nat.
Proof.
  intros c c1 H. assert (L : (length evs <= length (delivered (c_rd c)))%nat).
  { induction H as [|c e cm es c2 N H IH]; [cbn [length]; lia|]. apply next_consumes in N. cbn [length]. lia. }
  pose proof (delivered_sched (c_rd c)). lia.
Qed.

(** ** the command *)
Section Command.
  Variables fmt_f32 fmt_f64 : N -> bytes.
  Variable crc : bytes -> N.
  Variable checks : bool.
  Variable o : dml_options.
  Variable s : binlog_stream.
  Variable defs_of : bytes -> bytes -> list column_def.

  Notation runs := (runs fmt_f32 fmt_f64 crc checks o s defs_of).
  Lemma run_first items evs c last cx h ls d :
    io_pulls (next_event crc s) (S (length evs)) c = (returned evs ++ [last_result last], cx) ->
    Forall2 means evs items ->
    printed fmt_f32 fmt_f64 (selected o) defs_of earliest [] (scope (do_until_now o) items) = Ok ls ->
    tables_answered defs_of h (lookups (selected o) earliest [] (scope (do_until_now o) items)) d ->
    runs earliest items evs c last cx h ls d.
  Proof.
    intros P M L A. destruct (chain_pulls crc s (length evs) evs c _ cx eq_refl P) as (c1 & C & N).
    pose proof (loop_main fmt_f32 fmt_f64 crc checks o s defs_of items evs c c1 cx _ h ls d (S (sched_len (c_rd c))) M C N
      ltac:(destruct last; exact I) L A (chain_fuel _ _ _ _ _ C)) as H.
    unfold runs, dml_run. destruct H as (out & r & c' & h' & done & rest & E & H1 & H2 & H3 & H4).
    exists out, r, c', h', done, rest. splits; auto.
    destruct H4 as [H4|(X1 & X2 & X3 & [(Y1 & Y2 & Y3)|Y])]; [left; exact H4| |]; right; splits; auto. left. splits; auto.
    rewrite Y2. destruct last; reflexivity.
  Qed.
  Lemma runs_ext items evs c last cx h ls d : consistent [] (scope (do_until_now o) items) ->
    runs earliest items evs c last cx h ls d -> runs latest items evs c last cx h ls d.
  Proof.
    intros Hc (out & r & c' & h' & done & rest & E & H1 & H2 & H3 & H4).
    assert (X : forall p q, scope (do_until_now o) items = p ++ q ->
      printed fmt_f32 fmt_f64 (selected o) defs_of earliest [] p = printed fmt_f32 fmt_f64 (selected o) defs_of latest [] p /\
      lookups (selected o) earliest [] p = lookups (selected o) latest [] p).
    { intros p q Es. apply printed_ext. intros d1 d2 Ep id.
      apply (consistent_earliest _ [] Hc (fun _ => eq_refl) d1 (d2 ++ q)). rewrite Es, Ep, app_assoc. reflexivity. }
    exists out, r, c', h', done, rest. rewrite <- (proj2 (X done rest H2)). splits; auto.
    destruct H4 as [(Y1 & Y2 & Y3 & Y4 & before & it & lb & Y5 & Y6 & Y7)|H4]; [left|right; exact H4].
    splits; auto. exists before, it, lb. rewrite <- (proj1 (X before (it :: rest) ltac:(rewrite H2, Y5, <- app_assoc; reflexivity))). auto.
  Qed.
  Lemma run_latest items evs c last cx h ls d :
    io_pulls (next_event crc s) (S (length evs)) c = (returned evs ++ [last_result last], cx) ->
    Forall2 means evs items -> consistent [] (scope (do_until_now o) items) ->
    printed fmt_f32 fmt_f64 (selected o) defs_of latest [] (scope (do_until_now o) items) = Ok ls ->
    tables_answered defs_of h (lookups (selected o) latest [] (scope (do_until_now o) items)) d ->
    runs latest items evs c last cx h ls d.
  Proof.
    intros P M Hc L A. apply runs_ext; [exact Hc|].
    destruct (printed_ext fmt_f32 fmt_f64 (selected o) defs_of earliest latest (scope (do_until_now o) items) []) as [X1 X2].
    { intros d1 d2 Ep id. apply (consistent_earliest _ [] Hc (fun _ => eq_refl) d1 d2 Ep). }
    apply run_first; auto; [rewrite X1; exact L|rewrite X2; exact A].
  Qed.
  Lemma no_stop items : (In IRotate items -> do_until_now o = true) -> Forall (goes_on o) items.
  Proof. intros H. apply Forall_forall. intros it Hi ->. apply H. exact Hi. Qed.
  Lemma run_failure items evs e c cx h ls d r :
    io_pulls (next_event crc s) (S (length evs)) c = (returned (evs ++ [e]), cx) ->
    Forall2 means evs items -> (In IRotate items -> do_until_now o = true) ->
    printed fmt_f32 fmt_f64 (selected o) defs_of earliest [] items = Ok ls -> (do_limit o = 0 \/ n_stmts ls < do_limit o) ->
    tables_answered defs_of h (lookups (selected o) earliest [] items) d ->
    fails fmt_f32 fmt_f64 (selected o) defs_of (rev items) e r ->
    exists h', dml_run fmt_f32 fmt_f64 crc checks o s c h = (r, map text ls, cx, h') /\
      asked h h' (lookups (selected o) earliest [] items) /\ delivered (c_rd h') = d.
  Proof.
    intros P M G L B A F. unfold returned in P. rewrite map_app in P.
    destruct (chain_pulls crc s (length evs) evs c (Ok (Some e)) cx eq_refl P) as (c1 & C & N).
    apply (loop_failure fmt_f32 fmt_f64 crc checks o s defs_of items evs c c1 h ls d e cx r); auto using no_stop.
    apply (chain_fuel _ _ _ _ _ C).
  Qed.
  Lemma run_refused items evs h0 data dd tm c cx h ls d d' e qs ps ans :
    io_pulls (next_event crc s) (S (length evs)) c = (returned (evs ++ [mk_event KTableMap h0 data]), cx) ->
    Forall2 means evs items -> (In IRotate items -> do_until_now o = true) ->
    printed fmt_f32 fmt_f64 (selected o) defs_of earliest [] items = Ok ls -> (do_limit o = 0 \/ n_stmts ls < do_limit o) ->
    fst (read_table_map_data data) = Ok dd -> table_map_of dd = Ok tm ->
    earliest (rev items) (tmd_table_id dd) = None -> selected o tm = true -> names_ok tm ->
    tables_answered defs_of h (lookups (selected o) earliest [] items) d' ->
    table_refusal (c_cap h) tm qs ps e -> messages_wire ps ans -> d' = ans ++ d ->
    exists h', dml_run fmt_f32 fmt_f64 crc checks o s c h = (Err e, map text ls, cx, h') /\
      (exists ms, commanded h h' ms /\
         Forall2 (fun rq m => rq m) (flat_map (table_requests (c_cap h)) (lookups (selected o) earliest [] items) ++ qs) ms) /\
      delivered (c_rd h') = d.
  Proof.
    intros P M G L B R T En Hp Hn A Rf W Ed. unfold returned in P. rewrite map_app in P.
    destruct (chain_pulls crc s (length evs) evs c _ cx eq_refl P) as (c1 & C & N).
    apply (loop_refused fmt_f32 fmt_f64 crc checks o s defs_of items evs c c1 h ls d h0 data dd tm cx e
      (S (sched_len (c_rd c))) qs ps ans d'); auto using no_stop.
    apply (chain_fuel _ _ _ _ _ C).
  Qed.
End Command.

Lemma stmts_count {A} (f : A -> res bytes) l : forall out, sequence (map f l) = Ok out -> length out = length l.
Proof.
  induction l as [|x l IH]; intros out H; cbn [map sequence] in H; [injection H as <-; reflexivity|].
  destruct (f x); try discriminate H. cbn [rbind] in H. destruct (sequence (map f l)) eqn:E; try discriminate H.
  injection H as <-. cbn [length]. rewrite (IH _ eq_refl). reflexivity.
Qed.
Lemma seq_count {A B} (f : A -> res B) l : forall out, sequence (map f l) = Ok out -> length out = length l.
Proof.
  induction l as [|x l IH]; intros out H; cbn [map sequence] in H; [injection H as <-; reflexivity|].
  destruct (f x); try discriminate H. cbn [rbind] in H. destruct (sequence (map f l)) eqn:E; try discriminate H.
  injection H as <-. cbn [length]. rewrite (IH _ eq_refl). reflexivity.
Qed.
Lemma rbind_inv {A B} (x : res A) (f : A -> res B) b : rbind x f = Ok b -> exists a, x = Ok a /\ f a = Ok b.
Proof. destruct x; try discriminate. eauto. Qed.
Lemma rmap_inv {A B} (x : res A) (f : A -> B) b : rmap f x = Ok b -> exists a, x = Ok a /\ f a = b.
Proof. intros H. apply rbind_inv in H. destruct H as (a & -> & H). injection H as <-. eauto. Qed.
Lemma row_lines_count f32 f64 defs_of c d pos tm ls : row_lines f32 f64 defs_of c d pos tm = Ok ls ->
  match c with
  | RUpdate => exists u, update_rows_of d (tm_col_metas tm) = Ok u /\
      (existsb keyed (defs_of (tm_schema_name tm) (tm_table_name tm)) = true ->
       exists stmts, ls = map LStmt stmts /\ length stmts = length (u_rows u))
  | _ => exists rows stmts, rows_of d (tm_col_metas tm) = Ok rows /\ ls = map LStmt stmts /\ length stmts = length (r_rows rows)
  end.
Proof.
  unfold row_lines. cbv zeta. intros H. destruct c.
  - apply rbind_inv in H. destruct H as (rows & E & H). apply rmap_inv in H. destruct H as (st & H & <-).
    apply rbind_inv in H. destruct H as (q & Q & H). exists rows, st. splits; auto. apply seq_count in H. rewrite H.
    unfold sql_from_insert in Q. apply rbind_inv in Q. destruct Q as (df & _ & Q). apply rmap_inv in Q. destruct Q as (ps & Q & <-).
    apply seq_count in Q. exact Q.
  - apply rbind_inv in H. destruct H as (rows & E & H). exists rows. split; [exact E|]. intros K. rewrite K in H.
    apply rmap_inv in H. destruct H as (st & H & <-). exists st. split; [reflexivity|].
    apply rbind_inv in H. destruct H as (q & Q & H). apply seq_count in H. rewrite H.
    unfold sql_from_update in Q. apply rbind_inv in Q. destruct Q as (df & _ & Q). apply rbind_inv in Q. destruct Q as (df' & _ & Q).
    apply rmap_inv in Q. destruct Q as (ps & Q & <-). apply seq_count in Q. exact Q.
  - apply rbind_inv in H. destruct H as (rows & E & H). apply rmap_inv in H. destruct H as (st & H & <-).
    apply rbind_inv in H. destruct H as (q & Q & H). exists rows, st. splits; auto. apply seq_count in H. rewrite H.
    unfold sql_from_delete in Q. apply rbind_inv in Q. destruct Q as (df & _ & Q). apply rmap_inv in Q. destruct Q as (ps & Q & <-).
    apply seq_count in Q. exact Q.
Qed.
(** an update of a table without a column flagged both ways prints no statement *)
Lemma update_note f32 f64 defs_of d pos tm ls :
  (forall x, In x (defs_of (tm_schema_name tm) (tm_table_name tm)) -> ~ (N.testbit (cd_flags x) 1 = true /\ N.testbit (cd_flags x) 2 = true)) ->
  row_lines f32 f64 defs_of RUpdate d pos tm = Ok ls -> exists note, ls = [LNote note] /\ n_stmts ls = 0.
Proof.
  intros H. unfold row_lines. cbv zeta. intros E. apply rbind_inv in E. destruct E as (rows & _ & E).
  destruct (existsb keyed _) eqn:K.
  - exfalso. apply existsb_exists in K. destruct K as (x & Hx & K). apply (H x Hx). unfold keyed in K. apply andb_true_iff in K. exact K.
  - injection E as <-. eexists. split; reflexivity.
Qed.

(** ** the whole command *)
Lemma returned_prefix crc s n : forall evs c r c', (n <= length evs)%nat ->
  io_pulls (next_event crc s) (S (length evs)) c = (returned evs ++ [r], c') ->
  exists c1, io_pulls (next_event crc s) n c = (returned (firstn n evs), c1).
Proof.
  intros evs c r c' L P. replace (S (length evs)) with (n + (S (length evs) - n))%nat in P by lia. rewrite pulls_app in P.
  destruct (io_pulls (next_event crc s) n c) as [l1 c1] eqn:E1. destruct (io_pulls (next_event crc s) (S (length evs) - n) c1) as [l2 c2].
  injection P as P _. exists c1. f_equal.
  assert (L1 : length l1 = n).
  { clear - E1. revert c l1 c1 E1. induction n as [|n IH]; intros c l1 c1 E1; cbn [io_pulls] in E1; [injection E1 as <- _; reflexivity|].
    destruct (next_event crc s c) as [x cx]. destruct (io_pulls (next_event crc s) n cx) as [l cy] eqn:E. injection E1 as <- _.
    cbn [length]. f_equal. eapply IH. exact E. }
  assert (F : firstn n (l1 ++ l2) = firstn n (returned evs ++ [r])) by (rewrite P; reflexivity).
  rewrite <- L1 in F at 1. rewrite firstn_app, Nat.sub_diag, firstn_all in F. cbn [firstn] in F. rewrite app_nil_r in F. rewrite F.
  rewrite firstn_app. unfold returned at 2. rewrite map_length. replace (n - length evs)%nat with 0%nat by lia. cbn [firstn].
  rewrite app_nil_r. unfold returned. rewrite firstn_map. reflexivity.
Qed.
Definition only_reads {A} (m : io A) : Prop := forall c r c', m c = (r, c') -> same_but_read c c'.
Lemma only_bind {A B} (m : io A) (f : A -> io B) : only_reads m -> (forall a, only_reads (f a)) -> only_reads (ibind m f).
Proof.
  intros Hm Hf c r c' E. unfold ibind in E. destruct (m c) as [[a| | |] c1] eqn:E1; apply Hm in E1;
    try (injection E as _ <-; exact E1). eapply sbr_trans; [exact E1|]. eapply Hf. exact E.
Qed.
Lemma only_read_exact k : only_reads (io_read_exact k).
Proof. intros c r c' E. unfold io_read_exact in E. destruct (read_exact k (c_rd c) []) as [x y]. injection E as _ <-. repeat split. Qed.
Lemma only_ret {A} (x : A) : only_reads (iret x).
Proof. intros c r c' E. injection E as _ <-. apply sbr_refl. Qed.
Lemma only_loop fuel : forall bs, only_reads (recv_loop fuel bs).
Proof.
  induction fuel as [|fuel IH]; intros bs; cbn [recv_loop]; [intros c r c' E; injection E as _ <-; apply sbr_refl|].
  apply only_bind; [apply only_read_exact|intros l]. apply only_bind; [apply only_read_exact|intros q].
  apply only_bind; [intros c r c' E; injection E as _ <-; repeat split|intros _].
  apply only_bind; [apply only_read_exact|intros p]. cbv zeta. destruct (_ <? _); [apply only_ret|apply IH].
Qed.
Lemma recv_msg_reads : only_reads recv_msg.
Proof. intros c r c' E. eapply only_loop. exact E. Qed.
Lemma next_reads crc s c r c' : next_event crc s c = (r, c') -> same_but_read c c'.
Proof.
  unfold next_event. destruct (s_completed s); [intros H; injection H as _ <-; apply sbr_refl|].
  generalize (S (sched_len (c_rd c))). intros n. revert c.
  assert (R : forall c0 x c1, recv_and_parse_event crc s c0 = (x, c1) -> same_but_read c0 c1).
  { intros c0 x c1 E. unfold recv_and_parse_event, ibind in E. destruct (recv_msg c0) as [y cy] eqn:Er.
    assert (S : same_but_read c0 cy) by (eapply recv_msg_reads; exact Er).
    destruct y as [[|b p]| | |]; try (injection E as _ <-; exact S).
    destruct (_ && _); [injection E as _ <-; exact S|]. destruct (negb _); [injection E as _ <-; exact S|].
    unfold parse, ilift in E. destruct (fst (parse_event crc (s_pv4 s) (s_validate s) p)); injection E as _ <-; exact S. }
  induction n as [|n IH]; intros c; cbn [next_event_loop]; [intros H; injection H as _ <-; apply sbr_refl|]. unfold ibind.
  destruct (recv_and_parse_event crc s c) as [[x| | |] c1] eqn:E; apply R in E; try (intros H; injection H as _ <-; exact E).
  destruct x; try (intros H; injection H as _ <-; exact E). intros H. eapply sbr_trans; [exact E|]. apply IH. exact H.
Qed.

Lemma pulls_read crc s n : forall c l c', io_pulls (next_event crc s) n c = (l, c') -> same_but_read c c'.
Proof.
  induction n as [|n IH]; intros c l c' E; cbn [io_pulls] in E; [injection E as _ <-; apply sbr_refl|].
  destruct (next_event crc s c) as [x cx] eqn:N. destruct (io_pulls (next_event crc s) n cx) as [l2 cy] eqn:P. injection E as _ <-.
  eapply sbr_trans; [eapply next_reads; exact N|eapply IH; exact P].
Qed.
Lemma run_reads f32 f64 crc checks o s c h r out c' h' : dml_run f32 f64 crc checks o s c h = (r, out, c', h') -> same_but_read c c'.
Proof.
  unfold dml_run. generalize (S (sched_len (c_rd c))) (mk_dml [] [] 0). intros n. revert c h r out. induction n as [|n IH]; intros c h r out st E; cbn [dml_loop] in E.
  - injection E as _ _ <- _. apply sbr_refl.
  - destruct (next_event crc s c) as [[[e|]| | |] c1] eqn:N; apply next_reads in N; try (injection E as _ _ <- _; exact N).
    destruct (dml_event f32 f64 checks o st e h) as [[[o1 [st1|]]| | |] h1]; try (injection E as _ _ <- _; exact N).
    destruct (dml_loop f32 f64 crc checks o n s st1 c1 h1) as [[[r2 o2] c2] h2] eqn:L. injection E as _ _ <- <-.
    eapply sbr_trans; [exact N|]. eapply IH. exact L.
Qed.
Lemma print_general f32 f64 crc checks o defs_of cap uuid slave_id filename nb master_id algorithm mode qs ans sum m1 m2 fd es tail last items c h ls d dh :
  slave_id < 2 ^ 32 -> length uuid = 36%nat -> N.of_nat (length filename) < 2 ^ 30 ->
  let opts := bo_set_non_block nb (bo_set_pos 4 (bo_set_filename filename bo_new)) in
  set_up cap opts uuid slave_id master_id algorithm mode qs ans -> (sum = true <-> algorithm = str "CRC32") ->
  rotate_message sum m1 -> description_message fd m2 ->
  let sums := p_checksum (described_parser fd) in
  Forall2 means (reported sums es) items ->
  c_cap c = cap -> accepting (c_ws c) -> awaits c ((ans ++ [m1; m2]) ++ map (event_message crc sums) es ++ tail) d ->
  (forall c1, c_cap c1 = cap -> awaits c1 (map (event_message crc sums) es ++ tail) d ->
     exists c2, io_pulls (next_event crc (mk_stream (described_parser fd) false false nb)) (S (length (reported sums es))) c1 =
       (returned (reported sums es) ++ [last_result last], c2)) ->
  consistent [] (scope (do_until_now o) items) ->
  printed f32 f64 (selected o) defs_of latest [] (scope (do_until_now o) items) = Ok ls ->
  tables_answered defs_of h (lookups (selected o) latest [] (scope (do_until_now o) items)) dh ->
  exists out c' h' ms, print_dmls f32 f64 crc checks o uuid slave_id filename nb c h =
      (if stops_early o items ls then Ok tt else match last with Some e => Err e | None => Ok tt end, map text out, c', h') /\
    limited (do_limit o) ls out /\
    (exists done rest, scope (do_until_now o) items = done ++ rest /\ asked h h' (lookups (selected o) latest [] done)) /\
    commanded c c' ms /\ Forall2 (fun rq m => rq m) (qs ++ [asks cap (expected_dump (beqb mode (str "ON")) slave_id opts)]) ms.
Proof.
  intros Hi Hu Hf opts Hs Hsum Hm1 Hm2 sums Hm Hcap Ha Hw Hlast Hcons L A.
  pose proof (request_ok cap checks opts uuid slave_id slave_id master_id algorithm mode qs ans m1 fd m2) as R.
  specialize (R ltac:(reflexivity) Hi Hu ltac:(reflexivity)).
  specialize (R ltac:(unfold options_ok; cbn [bo_pos bo_server_id bo_filename bo_sids opts bo_set_non_block bo_set_pos bo_set_filename bo_new gtids];
    splits; [reflexivity|reflexivity|exact Hf|constructor|reflexivity])).
  specialize (R ltac:(intros _; reflexivity) Hs sum Hsum Hm1 Hm2).
  destruct (awaits_app _ _ _ _ Hw) as (d1 & W1 & W2).
  destruct (R c d1 Hcap Ha W1) as (c1 & ms & E1 & O1 & F1 & D1 & A1 & C1 & T1).
  specialize (W2 c1 D1). destruct (Hlast c1 C1 W2) as (c2 & P).
  destruct (run_latest f32 f64 crc checks o _ defs_of items (reported sums es) c1 last c2 h ls dh P Hm Hcons L A)
    as (out & r & c' & h' & done & rest & E & X1 & X2 & X3 & X4).
  assert (Er : r = if stops_early o items ls then Ok tt else match last with Some e => Err e | None => Ok tt end).
  { unfold stops_early. destruct X4 as [(Z1 & Z2 & -> & _)|(Z1 & _ & _ & [(Z2 & -> & _)|(Z2 & -> & _)])].
    - destruct (N.eqb_spec (do_limit o) 0); [congruence|]. destruct (N.leb_spec (do_limit o) (n_stmts ls)); [reflexivity|lia].
    - rewrite Z2, Nat.ltb_irrefl, orb_false_r. destruct (N.eqb_spec (do_limit o) 0); [reflexivity|].
      destruct (N.leb_spec (do_limit o) (n_stmts ls)); [lia|reflexivity].
    - rewrite (proj2 (Nat.ltb_lt _ _) Z2), orb_true_r. reflexivity. }
  subst r. exists out, c', h', ms. splits; auto.
  - unfold print_dmls. fold opts. rewrite E1. exact E.
  - eauto.
  - eapply commanded_read; [exact O1|]. eapply run_reads. exact E.
Qed.
Lemma print_all f32 f64 crc checks o defs_of cap uuid slave_id filename master_id algorithm mode qs ans sum m1 m2 fd es m items c h ls d dh :
  (forall bs, crc bs < 2 ^ 32) -> slave_id < 2 ^ 32 ->
  length uuid = 36%nat -> N.of_nat (length filename) < 2 ^ 30 ->
  let opts := bo_set_non_block true (bo_set_pos 4 (bo_set_filename filename bo_new)) in
  set_up cap opts uuid slave_id master_id algorithm mode qs ans -> (sum = true <-> algorithm = str "CRC32") ->
  rotate_message sum m1 -> description_message fd m2 ->
  let sums := p_checksum (described_parser fd) in
  Forall (log_event_ok sums) es -> Forall2 means (reported sums es) items -> eof_message cap m ->
  c_cap c = cap -> accepting (c_ws c) -> awaits c ((ans ++ [m1; m2]) ++ map (event_message crc sums) es ++ [m]) d ->
  consistent [] (scope (do_until_now o) items) ->
  printed f32 f64 (selected o) defs_of latest [] (scope (do_until_now o) items) = Ok ls ->
  tables_answered defs_of h (lookups (selected o) latest [] (scope (do_until_now o) items)) dh ->
  exists out c' h' ms, print_dmls f32 f64 crc checks o uuid slave_id filename true c h = (Ok tt, map text out, c', h') /\
    limited (do_limit o) ls out /\
    (exists done rest, scope (do_until_now o) items = done ++ rest /\ asked h h' (lookups (selected o) latest [] done)) /\
    commanded c c' ms /\ Forall2 (fun rq m => rq m) (qs ++ [asks cap (expected_dump (beqb mode (str "ON")) slave_id opts)]) ms.
Proof.
  intros Hc Hi Hu Hf opts Hs Hsum Hm1 Hm2 sums He Hm Heof Hcap Ha Hw Hcons L A.
  destruct (print_general f32 f64 crc checks o defs_of cap uuid slave_id filename true master_id algorithm mode qs ans sum m1 m2 fd es [m] None items c h ls d dh
    Hi Hu Hf Hs Hsum Hm1 Hm2 Hm Hcap Ha Hw) as (out & c' & h' & ms & E & X); auto.
  - intros c1 C1 W1. rewrite <- C1 in Heof.
    destruct (stream_end crc (mk_stream (described_parser fd) false false true) es m d c1 Hc eq_refl eq_refl He Heof W1) as (c2 & P & _). eauto.
  - exists out, c', h', ms. split; [|exact X]. rewrite E. destruct (stops_early o items ls); reflexivity.
Qed.
(** the server closes the connection instead of ending the log *)
Lemma print_cut f32 f64 crc checks o defs_of cap uuid slave_id filename nb master_id algorithm mode qs ans sum m1 m2 fd es items c h ls d dh :
  (forall bs, crc bs < 2 ^ 32) -> slave_id < 2 ^ 32 ->
  length uuid = 36%nat -> N.of_nat (length filename) < 2 ^ 30 ->
  let opts := bo_set_non_block nb (bo_set_pos 4 (bo_set_filename filename bo_new)) in
  set_up cap opts uuid slave_id master_id algorithm mode qs ans -> (sum = true <-> algorithm = str "CRC32") ->
  rotate_message sum m1 -> description_message fd m2 ->
  let sums := p_checksum (described_parser fd) in
  Forall (log_event_ok sums) es -> Forall2 means (reported sums es) items -> no_message d ->
  c_cap c = cap -> accepting (c_ws c) -> awaits c ((ans ++ [m1; m2]) ++ map (event_message crc sums) es) d ->
  consistent [] (scope (do_until_now o) items) ->
  printed f32 f64 (selected o) defs_of latest [] (scope (do_until_now o) items) = Ok ls ->
  tables_answered defs_of h (lookups (selected o) latest [] (scope (do_until_now o) items)) dh ->
  exists out c' h' ms, print_dmls f32 f64 crc checks o uuid slave_id filename nb c h =
      (if stops_early o items ls then Ok tt else Err EIO, map text out, c', h') /\
    limited (do_limit o) ls out /\
    (exists done rest, scope (do_until_now o) items = done ++ rest /\ asked h h' (lookups (selected o) latest [] done)) /\
    commanded c c' ms /\ Forall2 (fun rq m => rq m) (qs ++ [asks cap (expected_dump (beqb mode (str "ON")) slave_id opts)]) ms.
Proof.
  intros Hc Hi Hu Hf opts Hs Hsum Hm1 Hm2 sums He Hm Hd Hcap Ha Hw Hcons L A.
  apply (print_general f32 f64 crc checks o defs_of cap uuid slave_id filename nb master_id algorithm mode qs ans sum m1 m2 fd es [] (Some EIO) items c h ls d dh
    Hi Hu Hf Hs Hsum Hm1 Hm2 Hm Hcap Ha); auto.
  - rewrite app_nil_r. exact Hw.
  - intros c1 C1 W1. rewrite app_nil_r in W1.
    exact (stream_cut crc (mk_stream (described_parser fd) false false nb) es d c1 Hc eq_refl He Hd W1).
Qed.
Lemma remapped fmt_f32 fmt_f64 crc checks o s defs_of e1 e2 e3 id t1 t2 ch d pos c cx h ls dh :
  do_limit o = 0 -> selected o t1 = true ->
  io_pulls (next_event crc s) 4 c = (returned [e1; e2; e3] ++ [Ok None], cx) ->
  means e1 (IMap id t1) -> means e2 (IMap id t2) -> means e3 (IRows ch id d pos) ->
  row_lines fmt_f32 fmt_f64 defs_of ch d pos t1 = Ok ls -> tables_answered defs_of h [t1] dh ->
  exists c' h', dml_run fmt_f32 fmt_f64 crc checks o s c h = (Ok tt, map text ls, c', h') /\ asked h h' [t1].
Proof.
  intros L S P M1 M2 M3 R A.
  assert (Sc : scope (do_until_now o) [IMap id t1; IMap id t2; IRows ch id d pos] = [IMap id t1; IMap id t2; IRows ch id d pos]) by reflexivity.
  destruct (run_first fmt_f32 fmt_f64 crc checks o s defs_of [IMap id t1; IMap id t2; IRows ch id d pos] [e1; e2; e3] c None cx h ls dh P)
    as (out & r & c' & h' & done & rest & E & X1 & X2 & X3 & X4).
  - repeat constructor; assumption.
  - rewrite Sc. cbn [printed earliest]. rewrite N.eqb_refl, S, R. cbn. rewrite app_nil_r. reflexivity.
  - rewrite Sc. cbn [lookups earliest]. rewrite S, N.eqb_refl. exact A.
  - destruct X4 as [(Z & _)|(_ & X4 & _ & [(_ & X5 & _)|(Y & _)])]; [congruence| |rewrite Sc in Y; cbn [length] in Y; lia].
    unfold limited in X1. rewrite L in X1. cbn [N.eqb orb] in X1. rewrite X1, X5 in E. exists c', h'. split; [exact E|].
    rewrite X4 in X3. rewrite Sc in X3. cbn [lookups earliest] in X3. rewrite S, N.eqb_refl in X3. exact X3.
Qed.
Lemma old_rows fmt_f32 fmt_f64 crc checks o s evs c cx h :
  io_pulls (next_event crc s) (S (length evs)) c = (returned evs ++ [Ok None], cx) -> accepting (c_ws h) ->
  Forall (fun e => In (ev_kind e) [KWriteRowsV1; KUpdateRowsV1; KDeleteRowsV1]) evs ->
  exists h', dml_run fmt_f32 fmt_f64 crc checks o s c h = (Ok tt, [], cx, h') /\ asked h h' [].
Proof.
  intros P W H.
  assert (M : Forall2 means evs (map (fun _ => IOther) evs)).
  { clear P. induction H as [|e evs He H IH]; cbn [map]; constructor; auto. destruct e as [k h0 data]. constructor. cbn [ev_kind In] in *.
    intros Hk. repeat destruct Hk as [<-|Hk]; repeat destruct He as [He|He]; try discriminate He; contradiction. }
  assert (Sc : scope (do_until_now o) (map (fun _ => IOther) evs) = map (fun _ => IOther) evs).
  { clear. induction evs as [|e evs IH]; [reflexivity|]. cbn [map scope]. rewrite IH. reflexivity. }
  assert (Pr : forall recent, printed fmt_f32 fmt_f64 (selected o) (fun _ _ => []) earliest recent (map (fun _ : event => IOther) evs) = Ok []).
  { clear. induction evs as [|e evs IH]; intros recent; [reflexivity|]. cbn [map printed]. rewrite IH. reflexivity. }
  assert (Lk : forall recent, lookups (selected o) earliest recent (map (fun _ : event => IOther) evs) = []).
  { clear. induction evs as [|e evs IH]; intros recent; [reflexivity|]. cbn [map lookups]. rewrite IH. reflexivity. }
  destruct (run_first fmt_f32 fmt_f64 crc checks o s (fun _ _ => []) _ evs c None cx h [] (delivered (c_rd h)) P M)
    as (out & r & c' & h' & done & rest & E & X1 & X2 & X3 & X4).
  - rewrite Sc. apply Pr.
  - rewrite Sc, Lk. apply answered_nil. exact W.
  - assert (X1' : out = []).
    { unfold limited in X1. destruct (_ || _); [exact X1|]. destruct X1 as (_ & b & q & rs & -> & X). destruct b; discriminate X. }
    subst out. destruct X4 as [(Z & Z1 & _)|(_ & X4 & _ & [(_ & X5 & X6)|(Y & _)])].
    + exfalso. cbn [n_stmts] in Z1. lia.
    + exists h'. cbn [map] in E. rewrite X5, X6 in E. split; [exact E|]. rewrite X4, Sc, Lk in X3. exact X3.
    + rewrite Sc in Y. lia.
Qed.
