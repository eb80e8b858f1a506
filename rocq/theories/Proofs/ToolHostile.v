(** * The two programs end, whatever the server sends *)
From Coq Require Import Strings.String.
From Coq Require Import List NArith ZArith Lia Arith Bool.
From Verif Require Import Model.Base Model.BytesParser Model.LenEnc Model.Utf8 Model.Bitmap Model.Fmt Model.Time Model.Decimal Model.Conn Model.Auth Model.Session Model.Cmd Model.Col Model.Row Model.Rows Model.Stmt
  Model.Event Model.Stream Model.Transform Model.MyBinlog Model.Tools
  Spec.Framing Spec.Nums Spec.Codec Spec.Decoders Spec.Catalogue Spec.Programs Spec.Hostile Spec.ToolSpec
  Proofs.BaseLemmas Proofs.BytesParserProofs Proofs.CodecProofs Proofs.LenEncProofs Proofs.WireLemmas Proofs.PacketProofs Proofs.BitmapProofs Proofs.RowsProofs Proofs.LocalProofs Proofs.ConnProofs Proofs.TotalProofs Proofs.PanicProofs Proofs.EventPanicProofs Proofs.ScheduleProofs Proofs.HostileProofs Proofs.DmlScheduleProofs.
Import ListNotations.
Open Scope N_scope.

Definition fin {A} (r : res A) : Prop := r <> Loop.
Lemma fin_bind {A B} (r : res A) (f : A -> res B) : fin r -> (forall a, fin (f a)) -> fin (rbind r f).
Proof. intros H F. destruct r; cbn; try discriminate; [apply F|contradiction]. Qed.
Lemma fin_map {A B} (f : A -> B) r : fin r -> fin (rmap f r).
Proof. destruct r; cbn; intros; congruence. Qed.
Lemma fin_seq {A B} (f : A -> res B) l : (forall a, fin (f a)) -> fin (sequence (map f l)).
Proof. intros F. induction l as [|a l IH]; [discriminate|]. cbn [map sequence]. apply fin_bind; [apply F|]. intros b. apply fin_bind; [exact IH|]. discriminate. Qed.
Definition pfin {A} (p : parser A) : Prop := forall bs, fst (p bs) <> Loop.
Lemma pfin_bind {A B} (p : parser A) (f : A -> parser B) : pfin p -> (forall a, pfin (f a)) -> pfin (pbind p f).
Proof. intros H F bs. unfold pbind. specialize (H bs). destruct (p bs) as [[a|e|w|] r]; cbn [fst] in *; try discriminate; [apply F|contradiction]. Qed.
Lemma pfin_lift {A} (r : res A) : fin r -> pfin (plift r).
Proof. intros H bs. exact H. Qed.
Lemma pfin_np {A} (p : parser A) : no_panic p -> pfin p.
Proof. intros H bs. destruct (H bs) as [[a ->]|[e ->]]; discriminate. Qed.
Ltac fn := repeat (cbv beta zeta; first
  [ discriminate | solve [auto with fin]
  | match goal with
    | |- fin (rbind _ _) => apply fin_bind; [|intros ?]
    | |- fin (rmap _ _) => apply fin_map
    | |- fin (sequence (map _ _)) => apply fin_seq; intros ?
    | |- pfin (pbind _ _) => apply pfin_bind; [|intros ?]
    | |- pfin (plift _) => apply pfin_lift
    | |- pfin (pret _) => intros ?; discriminate
    | |- fin (if ?c then _ else _) => destruct c
    | |- fin (match ?x with _ => _ end) => destruct x
    end ]).

Lemma fin_filter bm defs : fin (filter_col_defs bm defs).
Proof. unfold filter_col_defs. rewrite bm_to_iter_spec by lia. discriminate. Qed.
Lemma fin_buf d i : fin (buf_at d i).
Proof. unfold buf_at. fn. Qed.
#[local] Hint Resolve fin_filter fin_buf : fin.
Lemma fin_frags d n : forall i, fin (fmt_frags d i n).
Proof. induction n as [|n IH]; intros i; cbn [fmt_frags]; fn. all: try apply IH. Qed.
#[local] Hint Resolve fin_frags : fin.
Lemma fin_tget t i : fin (tget t i).
Proof. unfold tget. fn. Qed.
#[local] Hint Resolve fin_tget : fin.
Lemma fin_decimal d : fin (fmt_decimal d).
Proof. unfold fmt_decimal. fn. Qed.
#[local] Hint Resolve fin_decimal : fin.
Lemma fin_value v u : fin (sv_of_binlog v u).
Proof. destruct v; cbn [sv_of_binlog]; unfold from_ymd, and_hms_micro, new_mydecimal; fn. Qed.
Lemma fin_bits bs : forall i n, fin (lit_bit_loop bs i n).
Proof. induction bs as [|b bs IH]; intros i n; cbn [lit_bit_loop]; unfold cadd; fn; apply IH. Qed.
#[local] Hint Resolve fin_value fin_bits : fin.
Lemma fin_literal f32 f64 p : fin (to_sql_literal f32 f64 p).
Proof. unfold to_sql_literal. destruct (sv_val p); unfold lit_time, lit_string; fn. Qed.
#[local] Hint Resolve fin_literal : fin.
Lemma fin_fill f32 f64 frs : forall ps, fin (fill f32 f64 frs ps).
Proof. induction frs as [|f frs IH]; intros ps; cbn [fill]; [discriminate|]. unfold param_text. fn; apply IH. Qed.
#[local] Hint Resolve fin_fill : fin.
Lemma fin_list f32 f64 q : fin (sql_list f32 f64 q).
Proof. unfold sql_list. fn. Qed.
#[local] Hint Resolve fin_list : fin.
Lemma fin_insert db tbl r defs : fin (sql_from_insert db tbl r defs).
Proof. unfold sql_from_insert, params_of. fn. Qed.
Lemma fin_delete db tbl r defs : fin (sql_from_delete db tbl r defs).
Proof. unfold sql_from_delete, key_params_of. fn. Qed.
Lemma fin_update db tbl r defs : fin (sql_from_update db tbl r defs).
Proof. unfold sql_from_update, key_params_of, params_of. fn. Qed.
#[local] Hint Resolve fin_insert fin_delete fin_update : fin.
Lemma fin_metas defs n : forall i, pfin (read_column_metas_loop n i defs).
Proof.
  induction n as [|n IH]; intros i; cbn [read_column_metas_loop]; fn.
  - unfold bget. fn.
  - destruct (column_type_returns (b2n a)) as [[x ->]|[x ->]]; discriminate.
  - intros bs. apply column_meta_noloop.
Qed.
Lemma fin_table_map d : fin (table_map_of d).
Proof.
  unfold table_map_of. apply fin_bind.
  - unfold read_raw_table_map.
    assert (P : pfin read_raw_table_map); [|apply P]. unfold read_raw_table_map.
    do 6 (apply pfin_bind; [apply pfin_np; pt|intros ?]). apply pfin_bind; [apply pfin_np; pt|intros ?].
    apply pfin_bind; [destruct (lei_to_u64 _); intros ?; discriminate|intros ?].
    do 2 (apply pfin_bind; [apply pfin_np; pt|intros ?]).
    apply pfin_bind; [destruct (lei_to_u64 _); intros ?; discriminate|intros ?].
    apply pfin_bind; [apply pfin_np; pt|intros ?].
    apply pfin_bind; [apply pfin_lift; unfold cadd; fn|intros ?].
    apply pfin_bind; [apply pfin_np; pt|intros ? ?]. discriminate.
  - intros raw. unfold table_map_of_raw, from_utf8. fn.
    assert (P : pfin (read_column_metas (rtm_col_cnt raw) (rtm_col_defs raw))); [|apply P].
    unfold read_column_metas. apply pfin_bind; [apply pfin_lift; unfold with_capacity; fn|intros _; apply fin_metas].
Qed.

(** ** Events *)
Lemma row_data bs d : fst (read_write_rows_v2 bs) = Ok d -> row_event_data bs (rd2_extra_data_len d) (rd2_payload d).
Proof.
  unfold read_write_rows_v2. intros H.
  destruct ((' table_id <- read_le_u48;; ' flags <- read_le_u16;; ' n <- read_le_u16;; ' payload <- read_rest;; pret (mk_rd2 table_id flags n payload)) bs) as [r z] eqn:E.
  cbn [fst] in H. subst r.
  apply pbind_inv in E. destruct E as (x & m1 & E1 & E). apply pbind_inv in E. destruct E as (y & m2 & E2 & E).
  apply pbind_inv in E. destruct E as (n & m3 & E3 & E). apply pbind_inv in E. destruct E as (pl & m4 & E4 & E). injection E as <- <-.
  apply (fixed_inv 6 _ le_val) in E1; [|intros; apply read_le_u48_spec; assumption|apply short_reads_all].
  apply (fixed_inv 2 _ le_val) in E2; [|intros; apply read_le_u16_spec; assumption|apply short_reads_all].
  apply (fixed_inv 2 _ le_val) in E3; [|intros; apply read_le_u16_spec; assumption|apply short_reads_all].
  destruct E1 as (a & -> & La & _), E2 as (b & -> & Lb & _), E3 as (c & -> & Lc & ->).
  injection E4 as <- <-. exists a, b, c. cbn [rd2_extra_data_len rd2_payload]. auto 6.
Qed.
Lemma row_data_d bs d : fst (read_delete_rows_v2 bs) = Ok d -> row_event_data bs (rd2_extra_data_len d) (rd2_payload d).
Proof.
  unfold read_delete_rows_v2, pbind. intros H. destruct (read_write_rows_v2 bs) as [[w|e|p|] z] eqn:E; try discriminate H.
  injection H as <-. apply (row_data bs w). rewrite E. reflexivity.
Qed.
Lemma row_data_u bs d : fst (read_update_rows_v2 bs) = Ok d -> row_event_data bs (rd2_extra_data_len d) (rd2_payload d).
Proof. exact (row_data_d bs d). Qed.
Lemma np_rows bs : fst (read_write_rows_v2 bs) <> Loop /\ fst (read_delete_rows_v2 bs) <> Loop /\ fst (read_update_rows_v2 bs) <> Loop.
Proof.
  split; [destruct (np_rows_v2 bs) as [[a ->]|[a ->]]; discriminate|].
  assert (N : no_panic read_delete_rows_v2) by (unfold read_delete_rows_v2; pt). split; destruct (N bs) as [[a E]|[a E]].
  1,2: rewrite E; discriminate. all: change (fst (read_delete_rows_v2 bs) <> Loop); rewrite E; discriminate.
Qed.

Section Dml.
  Variables fmt_f32 fmt_f64 : N -> bytes.
  Variable crc : bytes -> N.
  Variable checks : bool.
  Variable o : dml_options.

  Lemma delete_fin st h data : dml_delete fmt_f32 fmt_f64 o st data = Loop -> endless (mk_event KDeleteRowsV2 h data).
  Proof.
    unfold dml_delete. intros H. pose proof (row_data_d data) as R. destruct (fst (read_delete_rows_v2 data)) as [d|e|p|] eqn:E; try discriminate H.
    2:{ destruct (np_rows data) as (_ & N & _). contradiction. }
    specialize (R d eq_refl). cbn [rbind] in H. unfold with_table in H. destruct (skips _ _); [discriminate H|]. destruct (find_table _ _) as [tm|]; [|discriminate H].
    unfold rows_of in H. pose proof (rows_cases (rd2_extra_data_len d) (mt_metas tm) (rd2_payload d)) as C.
    destruct (fst (read_rows_v2 _ _ _)); try discriminate H.
    - cbn [rbind] in H. exfalso. revert H. apply fin_bind; [apply fin_delete|]. intros q. apply fin_map, fin_list.
    - exists (rd2_extra_data_len d), (rd2_payload d). split; [exact R|]. left. split; [right; reflexivity|exact C].
  Qed.
  Lemma insert_fin st h data : dml_insert fmt_f32 fmt_f64 o st data = Loop -> endless (mk_event KWriteRowsV2 h data).
  Proof.
    unfold dml_insert. intros H. pose proof (row_data data) as R. destruct (fst (read_write_rows_v2 data)) as [d|e|p|] eqn:E; try discriminate H.
    2:{ destruct (np_rows data) as (N & _). contradiction. }
    specialize (R d eq_refl). cbn [rbind] in H. unfold with_table in H. destruct (skips _ _); [discriminate H|]. destruct (find_table _ _) as [tm|]; [|discriminate H].
    unfold rows_of in H. pose proof (rows_cases (rd2_extra_data_len d) (mt_metas tm) (rd2_payload d)) as C.
    destruct (fst (read_rows_v2 _ _ _)); try discriminate H.
    - cbn [rbind] in H. exfalso. revert H. apply fin_bind; [apply fin_insert|]. intros q. apply fin_map, fin_list.
    - exists (rd2_extra_data_len d), (rd2_payload d). split; [exact R|]. left. split; [left; reflexivity|exact C].
  Qed.
  Lemma update_fin st pos h data : dml_update fmt_f32 fmt_f64 o st pos data = Loop -> endless (mk_event KUpdateRowsV2 h data).
  Proof.
    unfold dml_update. intros H. pose proof (row_data_u data) as R. destruct (fst (read_update_rows_v2 data)) as [d|e|p|] eqn:E; try discriminate H.
    2:{ destruct (np_rows data) as (_ & _ & N). contradiction. }
    specialize (R d eq_refl). cbn [rbind] in H. unfold with_table in H. destruct (skips _ _); [discriminate H|]. destruct (find_table _ _) as [tm|]; [|discriminate H].
    unfold update_rows_of in H. pose proof (update_rows_cases (rd2_extra_data_len d) (mt_metas tm) (rd2_payload d)) as C.
    destruct (fst (read_update_rows _ _ _)); try discriminate H.
    - cbn [rbind] in H. destruct (negb (key_exists (mt_defs tm))); [discriminate H|]. exfalso. revert H. apply fin_bind; [apply fin_update|]. intros q. apply fin_map, fin_list.
    - exists (rd2_extra_data_len d), (rd2_payload d). split; [exact R|]. right. split; [reflexivity|exact C].
  Qed.
  Lemma event_fin st e h : fst (dml_event fmt_f32 fmt_f64 checks o st e h) = Loop -> endless e.
  Proof.
    unfold dml_event. destruct e as [k hd data]. cbn [ev_kind ev_data ev_header]. destruct k; try discriminate; cbn [ilift fst].
    - intros H. exfalso. revert H.
      assert (T : program (fun x => x) (fun x => x) crc checks (dml_table_map checks o st data)).
      { unfold dml_table_map. apply pg_bind.
        - apply pg_ret. assert (N : no_panic read_table_map_data) by (unfold read_table_map_data; pt). destruct (N data) as [[a ->]|[a ->]]; discriminate.
        - intros d. cbv zeta. destruct (find_table _ _); [apply (pg_ret _ _ _ _ (Ok _)); discriminate|]. destruct (skips _ _); [apply (pg_ret _ _ _ _ (Ok _)); discriminate|].
          apply pg_bind; [apply pg_ret, fin_table_map|]. intros tm. destruct (_ || _)%bool; [apply (pg_ret _ _ _ _ (Ok _)); discriminate|].
          apply pg_bind; [apply pg_init_db|]. intros _. apply pg_bind; [apply pg_fields|]. intros defs. apply (pg_ret _ _ _ _ (Ok _)); discriminate. }
      intros H. destruct (program_tame _ _ _ _ _ _ T h) as [_ K]. rewrite H in K. exact K.
    - apply insert_fin.
    - apply update_fin.
    - apply delete_fin.
  Qed.
  Lemma loop_fin s c0 : forall f st c h, (length (arriving c) < f)%nat -> whole_messages c0 c ->
    let '(r, _, _, _) := dml_loop fmt_f32 fmt_f64 crc checks o f s st c h in
    r = Loop -> exists d d' e, whole_messages c0 d /\ next_event crc s d = (Ok (Some e), d') /\ endless e.
  Proof.
    induction f as [|f IH]; intros st c h L W; [lia|]. cbn [dml_loop].
    assert (T := program_tame (fun x => x) (fun x => x) crc checks _ _ (pg_event _ _ _ _ s) c). unfold tame_at in T.
    destruct (next_event crc s c) as [[[e|]|e|p|] c1] eqn:E; cbn [fst snd] in T; destruct T as [T1 T2]; try discriminate; [|contradiction].
    pose proof (event_takes _ _ _ _ _ E) as TK. specialize (T1 ltac:(discriminate)).
    pose proof (event_fin st e h) as F. destruct (dml_event fmt_f32 fmt_f64 checks o st e h) as [[[out [st'|]]|x|p|] h1]; cbn [fst] in F; try discriminate.
    - specialize (IH st' c1 h1 ltac:(lia) (whole_trans _ _ _ W T1)).
      destruct (dml_loop fmt_f32 fmt_f64 crc checks o f s st' c1 h1) as [[[r out'] c2] h2]. exact IH.
    - intros _. exists c, c1, e. split; [exact W|]. split; [exact E|]. apply F. reflexivity.
  Qed.
End Dml.
Lemma watch_fin crc s : forall f c, (length (arriving c) < f)%nat -> fst (fst (watch_loop crc f s c)) <> Loop.
Proof.
  induction f as [|f IH]; intros c L; [lia|]. cbn [watch_loop].
  assert (T := program_tame (fun x => x) (fun x => x) crc true _ _ (pg_event _ _ _ _ s) c). unfold tame_at in T.
  destruct (next_event crc s c) as [[[e|]|e|p|] c1] eqn:E; cbn [fst snd] in T; destruct T as [T1 T2]; try discriminate; [|contradiction].
  pose proof (event_takes _ _ _ _ _ E) as TK. specialize (IH c1 ltac:(lia)). destruct (watch_loop crc f s c1) as [[r es] c2]. exact IH.
Qed.

Section Tools.
  Variables sha1 sha256 : bytes -> bytes.
  Variables fmt_f32 fmt_f64 : N -> bytes.
  Variable crc : bytes -> N.
  Variable checks : bool.
  Variable compile : bytes -> option (bytes -> bool).

  Lemma connect_fin user pw s r c : connect sha1 sha256 checks user pw s = (r, c) -> r <> Loop /\
    forall x, r = Ok x -> exists s0 c0, s = Some s0 /\ c = Some c0 /\ whole_messages (conn_new s0) c0.
  Proof.
    unfold connect. destruct s as [s|]; [|intros H; injection H as <- <-; split; discriminate].
    destruct (program_tame _ _ crc checks _ _ (pg_handshake sha1 sha256 crc checks (mk_opts user pw [])) (conn_new s)) as [H1 H2].
    destruct (handshake sha1 sha256 checks (mk_opts user pw []) (conn_new s)) as [r0 c0]. cbn [fst snd] in *.
    intros H. injection H as -> <-. split; [destruct r; try discriminate; contradiction|]. intros x ->. exists s, c0.
    split; [reflexivity|]. split; [reflexivity|]. apply H1. discriminate.
  Qed.
  Lemma list_fin user pw s : fst (exec_list sha1 sha256 checks user pw s) <> Loop.
  Proof.
    unfold exec_list. destruct (connect sha1 sha256 checks user pw s) as [r c] eqn:E. destruct (connect_fin _ _ _ _ _ E) as [L K].
    destruct r as [x|e|p|]; try discriminate; [|contradiction].
    destruct (K x eq_refl) as (s0 & c0 & -> & -> & _).
    destruct (program_tame _ _ _ _ _ _ (pg_files sha1 sha256 crc checks) c0) as [_ H2]. destruct (conn_binlog_files checks c0) as [r c]. cbn [fst] in *.
    destruct r; try discriminate; contradiction.
  Qed.
  Lemma watch_returns uuid id conf s : fst (fst (fst (watch sha1 sha256 crc checks uuid id conf s))) <> Loop.
  Proof.
    unfold watch. destruct conf as [user pw|]; [|discriminate].
    destruct (connect sha1 sha256 checks user pw s) as [r c] eqn:E. destruct (connect_fin _ _ _ _ _ E) as [L K].
    destruct r as [x|e|p|]; try discriminate; [|contradiction].
    destruct (K x eq_refl) as (s0 & c0 & -> & -> & _).
    destruct (program_tame _ _ _ _ _ _ (pg_files sha1 sha256 crc checks) c0) as [_ H2]. destruct (conn_binlog_files checks c0) as [r c]. cbn [fst] in *.
    destruct r; try discriminate; [|contradiction].
    destruct (program_tame _ _ _ _ _ _ (pg_stream sha1 sha256 crc checks uuid id bo_new) c) as [_ H3].
    destruct (request_stream checks uuid id bo_new c) as [r c1]. cbn [fst] in *. destruct r as [st|e|p|]; try discriminate; [|contradiction].
    pose proof (arriving_le c1). pose proof (watch_fin crc st (S (sched_len (c_rd c1))) c1 ltac:(lia)).
    destruct (watch_loop crc (S (sched_len (c_rd c1))) st c1) as [[r es] c2]. cbn [fst] in *. assumption.
  Qed.
  Lemma dml_returns uuid id user pw filename until_now df tf block limit s1 s2 :
    fst (fst (fst (exec_dml sha1 sha256 fmt_f32 fmt_f64 crc checks compile uuid id user pw filename until_now df tf block limit s1 s2))) = Loop ->
    exists s0 st d d' e, s1 = Some s0 /\ whole_messages (conn_new s0) d /\ next_event crc st d = (Ok (Some e), d') /\ endless e.
  Proof.
    unfold exec_dml. destruct (connect sha1 sha256 checks user pw s1) as [r c] eqn:E. destruct (connect_fin _ _ _ _ _ E) as [L K].
    destruct r as [x|e|p|]; try discriminate; [|contradiction].
    destruct (K x eq_refl) as (s0 & c0 & -> & -> & W). clear E L K.
    destruct (connect sha1 sha256 checks user pw s2) as [r c] eqn:E. destruct (connect_fin _ _ _ _ _ E) as [L K].
    destruct r as [y|e|p|]; try discriminate; [|contradiction].
    destruct (K y eq_refl) as (s3 & h0 & -> & -> & _). clear E L K.
    unfold compile_opt. destruct (match df with Some _ => _ | None => _ end) as [p1|e|p|] eqn:F1; try discriminate.
    2:{ exfalso. destruct df as [z|]; [destruct (compile z)|]; discriminate F1. }
    destruct (match tf with Some _ => _ | None => _ end) as [p2|e|p|] eqn:F2; try discriminate.
    2:{ exfalso. destruct tf as [z|]; [destruct (compile z)|]; discriminate F2. }
    unfold print_dmls. set (bo := bo_set_non_block _ _).
    destruct (program_tame _ _ _ _ _ _ (pg_stream sha1 sha256 crc checks uuid id bo) c0) as [H3 H4].
    destruct (request_stream checks uuid id bo c0) as [r c1]. cbn [fst snd] in *. destruct r as [st|e|p|]; try discriminate; [|contradiction].
    specialize (H3 ltac:(discriminate)). unfold dml_run. pose proof (arriving_le c1).
    pose proof (loop_fin fmt_f32 fmt_f64 crc checks (mk_do until_now p1 p2 limit) st _ (S (sched_len (c_rd c1))) (mk_dml [] [] 0) c1 h0 ltac:(lia) (whole_trans _ _ _ W H3)) as Q.
    destruct (dml_loop _ _ _ _ _ _ st _ c1 h0) as [[[r out] c2] h2]. cbn [fst]. intros ->. destruct (Q eq_refl) as (d & d' & e & Q1 & Q2 & Q3).
    exists s0, st, d, d', e. auto.
  Qed.
End Tools.
