(** * Nothing is stopped by checks in a build without them *)
From Coq Require Import Lia.
From Verif Require Import Model.Base Model.BytesParser Model.LenEnc Model.Utf8 Model.Flags Model.Fmt Model.Time Model.Decimal
  Model.Bitmap Model.Cmd Model.Col Model.Row Model.Packet Model.Conn Model.Auth Model.Stmt Model.Extract Model.Session
  Model.Event Model.EventBody Model.Rows Model.Stream Model.Transform Model.MyBinlog Model.Tools Model.Release
  Spec.ReleaseSpec.
Open Scope N_scope.

Definition goes_on {A} (r : res A) : Prop := ~ stopped_by_checks r.
Definition pgoes_on {A} (p : parser A) : Prop := forall bs, goes_on (fst (p bs)).
Definition igoes_on {A} (m : io A) : Prop := forall c, goes_on (fst (m c)).

Lemma on_ok {A} (a : A) : goes_on (Ok a).
Proof. intros [H|H]; discriminate. Qed.
Lemma on_err {A} e : goes_on (@Err A e).
Proof. intros [H|H]; discriminate. Qed.
Lemma on_loop {A} : goes_on (@Loop A).
Proof. intros [H|H]; discriminate. Qed.
Lemma on_index {A} : goes_on (@Panic A PIndex).
Proof. intros [H|H]; discriminate. Qed.
Lemma on_unwrap {A} : goes_on (@Panic A PUnwrap).
Proof. intros [H|H]; discriminate. Qed.
Lemma on_unimplemented {A} : goes_on (@Panic A PUnimplemented).
Proof. intros [H|H]; discriminate. Qed.
Lemma on_unreachable {A} : goes_on (@Panic A PUnreachable).
Proof. intros [H|H]; discriminate. Qed.
Lemma on_alloc {A} : goes_on (@Panic A PAlloc).
Proof. intros [H|H]; discriminate. Qed.
Lemma on_panic {A B} p : goes_on (@Panic A p) -> goes_on (@Panic B p).
Proof. intros H [K|K]; injection K as ->; apply H; [left|right]; reflexivity. Qed.
Lemma on_bind {A B} (r : res A) (f : A -> res B) : goes_on r -> (forall a, goes_on (f a)) -> goes_on (rbind r f).
Proof. intros H K. destruct r; cbn; [apply K | apply on_err | exact (on_panic _ H) | apply on_loop]. Qed.
Lemma on_map {A B} (f : A -> B) (r : res A) : goes_on r -> goes_on (rmap f r).
Proof. intros H. apply on_bind; [exact H | intros; apply on_ok]. Qed.

Lemma pon_bind {A B} (p : parser A) (f : A -> parser B) : pgoes_on p -> (forall a, pgoes_on (f a)) -> pgoes_on (pbind p f).
Proof.
  intros H K bs. unfold pbind. specialize (H bs). destruct (p bs) as [[a|e|w|] rest]; cbn in *;
    [apply K | apply on_err | exact (on_panic _ H) | apply on_loop].
Qed.
Lemma pon_map {A B} (f : A -> B) p : pgoes_on p -> pgoes_on (pmap f p).
Proof. intros H. apply pon_bind; [exact H|]. intros a bs. apply on_ok. Qed.
Lemma pon_ret {A} (a : A) : pgoes_on (pret a).
Proof. intros bs; apply on_ok. Qed.
Lemma pon_fail {A} e : pgoes_on (@pfail A e).
Proof. intros bs; apply on_err. Qed.
Lemma pon_panic {A} w : goes_on (@Panic A w) -> pgoes_on (@ppanic A w).
Proof. intros H bs; exact H. Qed.
Lemma pon_lift {A} (r : res A) : goes_on r -> pgoes_on (plift r).
Proof. intros H bs; exact H. Qed.
Lemma pon_peek {A} (p : parser A) : pgoes_on p -> pgoes_on (ppeek p).
Proof. intros H bs; exact (H bs). Qed.
Lemma pon_remaining : pgoes_on premaining.
Proof. intros bs; apply on_ok. Qed.
Lemma pon_fst {A} (p : parser A) bs : pgoes_on p -> goes_on (fst (p bs)).
Proof. intros H; exact (H bs). Qed.
Lemma pon_repeat {A} (p : parser A) n : pgoes_on p -> pgoes_on (prepeat n p).
Proof.
  intros H. induction n as [|n IH]; cbn [prepeat]; [apply pon_ret|].
  apply pon_bind; [exact H|]. intros a. apply pon_bind; [exact IH|]. intros l. apply pon_ret.
Qed.
Lemma pon_mapM {X A} (f : X -> parser A) xs : (forall x, pgoes_on (f x)) -> pgoes_on (pmapM f xs).
Proof.
  intros H. induction xs as [|x xs IH]; cbn [pmapM]; [apply pon_ret|].
  apply pon_bind; [apply H|]. intros a. apply pon_bind; [exact IH|]. intros l. apply pon_ret.
Qed.
Lemma pon_while {A} (p : parser A) : pgoes_on p -> pgoes_on (while_remaining p).
Proof.
  intros H bs. unfold while_remaining. generalize (length bs) as n. intros n. revert bs.
  induction n as [|n IH]; intros bs; destruct bs as [|b bs]; cbn [pwhile]; try apply on_ok; try apply on_loop.
  apply pon_bind; [exact H|]. intros a. apply pon_bind; [exact IH|]. intros l. apply pon_ret.
Qed.
Lemma pon_take k : pgoes_on (take k).
Proof. intros bs. unfold take. destruct (_ <? _)%nat; cbn; [apply on_err | apply on_ok]. Qed.
Lemma pon_u8 : pgoes_on read_u8.
Proof. intros [|b bs]; cbn; [apply on_err | apply on_ok]. Qed.
Lemma pon_byte : pgoes_on read_byte.
Proof. intros [|b bs]; cbn; [apply on_err | apply on_ok]. Qed.
Lemma pon_len n : pgoes_on (read_len n).
Proof. intros bs. unfold read_len. destruct (_ <? _); cbn; [apply on_err | apply on_ok]. Qed.
Lemma pon_until b i : pgoes_on (read_until b i).
Proof. intros bs. unfold read_until. destruct (position _ _); [destruct i|]; cbn; first [apply on_ok | apply on_err]. Qed.
Lemma pon_rest : pgoes_on read_rest.
Proof. intros bs; apply on_ok. Qed.
Lemma pon_split_to n : pgoes_on (split_to n).
Proof. intros bs. unfold split_to. destruct (_ <? _); cbn; [apply on_index | apply on_ok]. Qed.
Lemma pon_of {A} (r : res A) (rest : bytes) : goes_on r -> goes_on (fst (r, rest)).
Proof. exact (fun H => H). Qed.

Lemma on_bget bs i : goes_on (bget bs i).
Proof. unfold bget. destruct (nth_error _ _); [apply on_ok | apply on_index]. Qed.
Lemma on_bset bs : forall i v, goes_on (bset bs i v).
Proof.
  induction bs as [|b bs IH]; intros i v; cbn [bset]; [apply on_index|].
  destruct i; [apply on_ok|]. apply on_bind; [apply IH | intros; apply on_ok].
Qed.
Lemma on_seq {A} (l : list (res A)) : (forall r, In r l -> goes_on r) -> goes_on (sequence l).
Proof.
  induction l as [|r l IH]; intros H; cbn [sequence]; [apply on_ok|].
  apply on_bind; [apply H; left; reflexivity|]. intros a. apply on_map || apply on_bind; try (intros; apply on_ok).
  all: apply IH; intros r' Hr; apply H; right; exact Hr.
Qed.
Lemma on_seq_map {A B} (f : A -> res B) l : (forall a, goes_on (f a)) -> goes_on (sequence (map f l)).
Proof. intros H. apply on_seq. intros r Hr. apply in_map_iff in Hr. destruct Hr as [a [<- _]]. apply H. Qed.

Create HintDb on.
#[export] Hint Resolve on_ok on_err on_loop on_index on_unwrap on_unimplemented on_unreachable on_alloc on_bget on_bset
  pon_ret pon_fail pon_remaining pon_take pon_u8 pon_byte pon_len pon_until pon_rest pon_split_to : on.

Ltac head t := match t with ?f _ => head f | _ => t end.
Ltac on_step :=
  match goal with
  | |- goes_on (rbind _ _) => apply on_bind; [|intros ?]
  | |- goes_on (rmap _ _) => apply on_map
  | |- pgoes_on (pbind _ _) => apply pon_bind; [|intros ?]
  | |- pgoes_on (pmap _ _) => apply pon_map
  | |- pgoes_on (plift _) => apply pon_lift
  | |- pgoes_on (ppeek _) => apply pon_peek
  | |- pgoes_on (ppanic _) => apply pon_panic
  | |- pgoes_on (prepeat _ _) => apply pon_repeat
  | |- pgoes_on (pmapM _ _) => apply pon_mapM; intros ?
  | |- pgoes_on (while_remaining _) => apply pon_while
  | |- goes_on (sequence (map _ _)) => apply on_seq_map; intros ?
  | |- pgoes_on (match ?x with _ => _ end) => destruct x eqn:?
  | |- goes_on (match ?x with _ => _ end) => destruct x eqn:?
  | |- goes_on (fst (match ?x with _ => _ end)) => destruct x eqn:?
  | |- goes_on (fst (match ?x with _ => _ end _)) => destruct x eqn:?
  | |- goes_on (fst (_, _)) => apply pon_of
  | |- pgoes_on (let _ := _ in _) => cbv zeta
  | |- goes_on (let _ := _ in _) => cbv zeta
  | |- pgoes_on (fun _ => _) => intros ?; cbv beta
  end.
Ltac on_unfold :=
  match goal with
  | |- pgoes_on ?t => let h := head t in unfold h
  | |- goes_on (fst (?p ?bs)) => apply pon_fst
  | |- goes_on ?t => let h := head t in unfold h
  end.
Ltac on := repeat first [solve [auto with on] | progress cbv zeta | on_step | on_unfold].

Lemma on_from_utf8 bs : goes_on (from_utf8 bs).
Proof. on. Qed.
#[export] Hint Resolve on_from_utf8 : on.
Lemma pon_f64 : pgoes_on read_le_f64_rel.
Proof. on. Qed.
Lemma pon_greeting : pgoes_on read_initial_handshake_rel.
Proof. on. Qed.
Lemma pon_decimal i f : pgoes_on (read_decimal_rel i f).
Proof. on. Qed.
#[export] Hint Resolve pon_f64 pon_greeting pon_decimal : on.
Lemma pon_binary_value ct : pgoes_on (read_binary_value_rel ct).
Proof. destruct ct; cbn [read_binary_value_rel read_binary_value]; on. Qed.
#[export] Hint Resolve pon_binary_value : on.
Lemma pon_log_value m : pgoes_on (read_binlog_value_rel m).
Proof. destruct m; cbn [read_binlog_value_rel read_binlog_value]; on. Qed.
#[export] Hint Resolve pon_log_value : on.
Lemma on_bm_next bits i : goes_on (bm_next bits i).
Proof. on. Qed.
Lemma on_bm_index bits i : goes_on (bm_index bits i).
Proof. on. Qed.
Lemma on_bm_mark bits i b : goes_on (bm_mark bits i b).
Proof. on. Qed.
#[export] Hint Resolve on_bm_next on_bm_index on_bm_mark : on.
Lemma on_bm_iter fuel bits : forall i, goes_on (bm_iter_from fuel bits i).
Proof. induction fuel as [|fuel IH]; intros i; cbn [bm_iter_from]; on. Qed.
#[export] Hint Resolve on_bm_iter : on.
Lemma on_next_set fuel bm : forall j, goes_on (next_set fuel bm j).
Proof. induction fuel as [|fuel IH]; intros j; cbn [next_set]; on. Qed.
#[export] Hint Resolve on_next_set : on.
Lemma on_mark_nulls n : forall i j a b, goes_on (mark_nulls n i j a b).
Proof. induction n as [|n IH]; intros i j a b; cbn [mark_nulls]; on. Qed.
#[export] Hint Resolve on_mark_nulls : on.
Lemma pon_binary_cols cts bits : forall i, pgoes_on (read_binary_cols_rel cts bits i).
Proof. induction cts as [|ct cts IH]; intros i; cbn [read_binary_cols_rel]; on. Qed.
#[export] Hint Resolve pon_binary_cols : on.
Lemma pon_binary_row cts : pgoes_on (read_binary_row_rel cts).
Proof. on. Qed.
Lemma pon_log_cols n bm metas : forall i, pgoes_on (read_log_cols_rel n i bm metas).
Proof. induction n as [|n IH]; intros i; cbn [read_log_cols_rel]; on. Qed.
#[export] Hint Resolve pon_log_cols : on.
Lemma pon_log_row n bm metas : pgoes_on (read_log_row_rel n bm metas).
Proof. on. Qed.
#[export] Hint Resolve pon_log_row : on.
Lemma pon_header : pgoes_on read_event_header.
Proof. on. Qed.
#[export] Hint Resolve pon_header : on.
Lemma pon_fde : pgoes_on read_fde_rel.
Proof. on. Qed.
#[export] Hint Resolve pon_fde : on.
Lemma pon_fde_bytes : pgoes_on from_fde_bytes_rel.
Proof.
  unfold from_fde_bytes_rel. apply pon_bind; [on|]. intros h. apply pon_bind; [on|]. intros raw.
  pose proof (pon_fde raw) as H. destruct (read_fde_rel raw) as [r rest]. cbn in H.
  apply pon_bind; [apply pon_lift, H|]. intros d. on.
Qed.
#[export] Hint Resolve pon_fde_bytes : on.
Lemma pon_binlog_file : pgoes_on from_binlog_file_rel.
Proof. on. Qed.
Lemma on_split_last4 bs : goes_on (split_last4 bs).
Proof. on. Qed.
#[export] Hint Resolve on_split_last4 : on.
Lemma pon_parse_event crc pv v : pgoes_on (parse_event_rel crc pv v).
Proof. on. Qed.
Lemma pon_skip_event pv : pgoes_on (skip_event_rel pv).
Proof. on. Qed.
Lemma on_checksum_event crc pv bs : goes_on (checksum_event_rel crc pv bs).
Proof. on. Qed.
Lemma pon_load : pgoes_on read_load_rel.
Proof. on. Qed.
Lemma pon_new_load : pgoes_on read_new_load_rel.
Proof. on. Qed.
Lemma pon_column_metas_loop n defs : forall i, pgoes_on (read_column_metas_loop n i defs).
Proof.
  induction n as [|n IH]; intros i; cbn [read_column_metas_loop]; [on|].
  apply pon_bind; [on|]. intros code. apply pon_bind; [on|]. intros ct.
  apply pon_bind; [destruct ct; cbn [read_column_meta]; on|]. intros m. on.
Qed.
#[export] Hint Resolve pon_column_metas_loop : on.
Lemma on_table_map d : goes_on (table_map_of_rel d).
Proof. on. Qed.
Lemma pon_row_image n bm k metas : pgoes_on (read_row_image_rel n bm k metas).
Proof. on. Qed.
#[export] Hint Resolve pon_row_image : on.
Lemma on_rows d metas : goes_on (rows_of_rel d metas).
Proof. on. Qed.
Lemma on_update_rows d metas : goes_on (update_rows_of_rel d metas).
Proof. on. Qed.
Lemma on_parse_u k s : goes_on (parse_u k s).
Proof. on. Qed.
Lemma on_parse_i k s : goes_on (parse_i k s).
Proof. on. Qed.
#[export] Hint Resolve on_table_map on_rows on_update_rows on_parse_u on_parse_i : on.
Lemma on_time_from_text bs : goes_on (time_from_text_rel bs).
Proof. on. Qed.

(** ** SQL and JSON *)
Lemma on_fmt_frags d n : forall i, goes_on (fmt_frags d i n).
Proof. induction n as [|n IH]; intros i; cbn [fmt_frags]; on. Qed.
#[export] Hint Resolve on_fmt_frags : on.
Lemma on_sv_of_binlog v u : goes_on (sv_of_binlog v u).
Proof. on. Qed.
#[export] Hint Resolve on_sv_of_binlog : on.
Lemma on_sql_literal a b v : goes_on (to_sql_literal_rel a b v).
Proof. unfold to_sql_literal_rel. destruct (sv_val v) eqn:E; try apply on_ok; unfold to_sql_literal; rewrite E; on. Qed.
#[export] Hint Resolve on_sql_literal : on.
Lemma on_fill a b frs : forall ps, goes_on (fill_rel a b frs ps).
Proof. induction frs as [|f frs IH]; intros ps; cbn [fill_rel]; on. Qed.
#[export] Hint Resolve on_fill : on.
Lemma on_sql_list a b q : goes_on (sql_list_rel a b q).
Proof. on. Qed.
#[export] Hint Resolve on_sql_list : on.
Lemma on_json_value w v : goes_on (to_json_value_rel w v).
Proof. unfold to_json_value_rel. destruct (sv_val v) eqn:E; try apply on_ok; unfold to_json_value; rewrite E; on. Qed.
#[export] Hint Resolve on_json_value : on.
Lemma on_json_cols w cells : forall m enc, goes_on (json_cols_rel w cells m enc).
Proof.
  induction cells as [|[def col] cells IH]; intros m enc; cbn [json_cols_rel]; [on|].
  apply on_bind; [on|]. intros sv. apply on_bind; [on|]. intros p. apply IH.
Qed.
Lemma on_json_cols_after w cells : forall m enc, goes_on (json_cols_after_rel w cells m enc).
Proof.
  induction cells as [|[def col] cells IH]; intros m enc; cbn [json_cols_after_rel]; [on|].
  apply on_bind; [on|]. intros sv. apply on_bind; [on|]. intros p. apply IH.
Qed.
#[export] Hint Resolve on_json_cols on_json_cols_after : on.
Lemma on_json_insert w db tbl r defs : goes_on (json_from_insert_rel w db tbl r defs).
Proof. on. Qed.
Lemma on_json_delete w db tbl r defs : goes_on (json_from_delete_rel w db tbl r defs).
Proof. on. Qed.
Lemma on_json_update w db tbl u defs : goes_on (json_from_update_rel w db tbl u defs).
Proof. on. Qed.

(** ** Connections *)
Lemma ion_bind {A B} (m : io A) (f : A -> io B) : igoes_on m -> (forall a, igoes_on (f a)) -> igoes_on (ibind m f).
Proof.
  intros H K c. unfold ibind. specialize (H c). destruct (m c) as [[a|e|w|] c']; cbn in *;
    [apply K | apply on_err | exact (on_panic _ H) | apply on_loop].
Qed.
Lemma ion_lift {A} (r : res A) : goes_on r -> igoes_on (ilift r).
Proof. intros H c; exact H. Qed.
Lemma ion_ret {A} (a : A) : igoes_on (iret a).
Proof. intros c; apply on_ok. Qed.
Lemma ion_err {A} e : igoes_on (@ierr A e).
Proof. intros c; apply on_err. Qed.
Lemma ion_panic {A} p : goes_on (@Panic A p) -> igoes_on (@ipanic A p).
Proof. intros H c; exact H. Qed.
Lemma ion_parse {A} (p : parser A) msg : pgoes_on p -> igoes_on (parse p msg).
Proof. intros H c; exact (H msg). Qed.
Lemma ion_set (f : conn -> conn) : igoes_on (fun c => (Ok tt, f c)).
Proof. intros c; apply on_ok. Qed.
Lemma read_exact_on s : forall k acc, goes_on (fst (read_exact k s acc)).
Proof.
  induction s as [|[|bs|] s IH]; intros k acc; destruct k; cbn [read_exact fst]; auto with on.
  destruct bs as [|b bs]; cbn [fst]; auto with on. destruct (_ <=? _)%nat; cbn [fst]; auto with on.
Qed.
Lemma ion_read_exact k : igoes_on (io_read_exact k).
Proof.
  intros c. unfold io_read_exact. pose proof (read_exact_on (c_rd c) k []) as H.
  destruct (read_exact _ _ _) as [r s]. exact H.
Qed.
Lemma write_all_on s : forall bs, goes_on (fst (fst (write_all bs s))).
Proof.
  induction s as [|[|n|] s IH]; intros bs; destruct bs as [|b bs]; cbn [write_all fst]; auto with on.
  destruct n as [|n]; cbn [fst]; auto with on. specialize (IH (skipn (S n) (b :: bs))).
  destruct (write_all _ _) as [[r out] s']. exact IH.
Qed.
Lemma ion_write_all bs : igoes_on (io_write_all bs).
Proof.
  intros c. unfold io_write_all. pose proof (write_all_on (c_ws c) bs) as H.
  destruct (write_all _ _) as [[r out] s]. exact H.
Qed.
#[export] Hint Resolve ion_ret ion_err ion_set ion_read_exact ion_write_all : on.
Ltac ion_conn :=
  let c := fresh "c" in intros c; cbv beta;
  match goal with |- goes_on (fst (?P ?l)) => cut (igoes_on P); [let H := fresh in intros H; exact (H l)|] end.
Ltac ion_step :=
  match goal with
  | |- igoes_on (ibind _ _) => apply ion_bind; [|intros ?]
  | |- igoes_on (ilift _) => apply ion_lift
  | |- igoes_on (ipanic _) => apply ion_panic
  | |- igoes_on (parse _ _) => apply ion_parse
  | |- igoes_on (match ?x with _ => _ end) => destruct x eqn:?
  | |- igoes_on (fun c => _) => ion_conn
  end.
Ltac ion_unfold :=
  match goal with |- igoes_on ?t => let h := head t in unfold h end.
Ltac ion := repeat first [solve [auto with on] | progress cbv zeta | ion_step | ion_unfold | on_step | on_unfold].

Lemma ion_recv_loop fuel : forall bs, igoes_on (recv_loop fuel bs).
Proof. induction fuel as [|fuel IH]; intros bs; cbn [recv_loop]; ion. Qed.
Lemma ion_recv : igoes_on recv_msg.
Proof. intros c. apply ion_recv_loop. Qed.
#[export] Hint Resolve ion_recv : on.
Lemma ion_inc : igoes_on (inc_pkt_nr false).
Proof. intros c. unfold inc_pkt_nr. destruct (_ =? _); apply on_ok. Qed.
#[export] Hint Resolve ion_inc : on.
Lemma ion_send_packet bs : igoes_on (send_packet false bs).
Proof.
  unfold send_packet. apply ion_bind; [auto with on|]. intros _. apply ion_bind.
  - intros c. apply ion_write_all.
  - intros _. apply ion_bind; [auto with on|]. intros _. auto with on.
Qed.
#[export] Hint Resolve ion_send_packet : on.
Lemma ion_send_loop fuel : forall bs, igoes_on (send_loop false fuel bs).
Proof. induction fuel as [|fuel IH]; intros bs; cbn [send_loop]; ion. Qed.
Lemma ion_send msg reset : igoes_on (send_msg false msg reset).
Proof.
  unfold send_msg. apply ion_bind; [destruct reset; [intros c; apply on_ok | apply ion_ret]|].
  intros _. apply ion_send_loop.
Qed.
#[export] Hint Resolve ion_send : on.

(** ** Commands *)
Lemma pon_err_packet cap b : pgoes_on (read_err_packet cap b).
Proof. on. Qed.
Lemma pon_ok_packet cap : pgoes_on (read_ok_packet cap).
Proof. on. Qed.
Lemma pon_eof_packet cap : pgoes_on (read_eof_packet cap).
Proof. on. Qed.
Lemma pon_column_def b : pgoes_on (read_column_def b).
Proof. on. Qed.
#[export] Hint Resolve pon_err_packet pon_ok_packet pon_eof_packet pon_column_def : on.
Lemma ion_server_error {A} msg : igoes_on (@server_error A msg).
Proof. ion. Qed.
#[export] Hint Resolve ion_server_error : on.
Lemma ion_col_defs n : igoes_on (recv_col_defs n).
Proof. induction n as [|n IH]; cbn [recv_col_defs]; ion. Qed.
Lemma ion_defs_eof : igoes_on recv_defs_eof.
Proof. ion. Qed.
Lemma on_col_cnt cap msg : goes_on (parse_col_cnt_packet cap msg).
Proof.
  destruct msg as [|b msg]; [on|]. unfold parse_col_cnt_packet. destruct (_ =? 0xff); [on|]. destruct (_ =? 0); [on|].
  pose proof (pon_fst read_len_enc_int (b :: msg) ltac:(on)) as H.
  destruct (read_len_enc_int (b :: msg)) as [r rest]. apply on_bind; [exact H|]. intros l. on.
Qed.
#[export] Hint Resolve ion_col_defs ion_defs_eof on_col_cnt : on.
Lemma ion_new_result_set o : igoes_on (new_result_set o).
Proof. ion. Qed.
#[export] Hint Resolve ion_new_result_set : on.
Lemma ion_query_exec_loop fuel : igoes_on (query_exec_loop fuel).
Proof. induction fuel as [|fuel IH]; cbn [query_exec_loop]; ion. Qed.
Lemma ion_stmt_exec_loop fuel : igoes_on (stmt_exec_loop fuel).
Proof. induction fuel as [|fuel IH]; cbn [stmt_exec_loop]; ion. Qed.
Lemma ion_field_list_loop fuel : forall acc, igoes_on (field_list_loop fuel acc).
Proof. induction fuel as [|fuel IH]; intros acc; cbn [field_list_loop]; ion. Qed.
#[export] Hint Resolve ion_query_exec_loop ion_stmt_exec_loop ion_field_list_loop : on.
Lemma ion_query_exec sql : igoes_on (query_exec false sql).
Proof. ion. Qed.
Lemma ion_query_qry sql : igoes_on (query_qry false sql).
Proof. ion. Qed.
Lemma ion_stmt_prepare sql : igoes_on (stmt_prepare false sql).
Proof. ion. Qed.
Lemma ion_stmt_exec ps params : igoes_on (stmt_exec false ps params).
Proof. ion. Qed.
Lemma ion_stmt_exec_close ps params : igoes_on (stmt_exec_close false ps params).
Proof.
  intros c. unfold stmt_exec_close. pose proof (ion_stmt_exec ps params c) as H.
  destruct (stmt_exec false ps params c) as [[a|e|p|] c']; try exact H.
  - pose proof (ion_send (write_stmt_close (ps_stmt_id ps)) true c') as K. fold (stmt_close false ps) in K.
    destruct (stmt_close false ps c') as [[b|e|p|] c'']; cbn [fst] in *; auto with on.
  - pose proof (ion_send (write_stmt_close (ps_stmt_id ps)) true c') as K. fold (stmt_close false ps) in K.
    destruct (stmt_close false ps c') as [[b|e'|p|] c'']; cbn [fst] in *; auto with on.
Qed.
#[export] Hint Resolve ion_query_exec ion_query_qry ion_stmt_prepare ion_stmt_exec ion_stmt_exec_close : on.
Lemma ion_com_response : igoes_on recv_com_response.
Proof. ion. Qed.
#[export] Hint Resolve ion_com_response : on.
Lemma ion_init_db db : igoes_on (conn_init_db false db).
Proof. ion. Qed.
Lemma ion_field_list t w : igoes_on (conn_field_list false t w).
Proof. ion. Qed.
Lemma pon_text_cols n : pgoes_on (read_text_row n).
Proof. on. Qed.
#[export] Hint Resolve ion_init_db ion_field_list pon_text_cols : on.

Ltac fin := cbn [fst snd rmap rbind] in *; try solve [auto with on | eapply on_panic; eassumption].

(** rows of a result set *)
Definition rgoes_on {A} (m : rs_io A) : Prop := forall rs c, goes_on (fst (fst (m rs c))).
Lemma ron_next {Q} (read : result_set -> parser (list Q)) : (forall rs, pgoes_on (read rs)) -> rgoes_on (next_row read).
Proof.
  intros H rs c. unfold next_row. destruct (rs_completed rs); [apply on_ok|].
  pose proof (ion_recv c) as K. destruct (recv_msg c) as [[msg|e|p|] c']; fin.
  - assert (N : goes_on (fst (next_row_msg read (c_cap c) rs msg))).
    { unfold next_row_msg. destruct msg as [|b msg]; [apply on_err|]. destruct (_ && _)%bool.
      - destruct (contains _ _).
        + pose proof (pon_ok_packet (c_cap c) (b :: msg)) as N. destruct (read_ok_packet _ _) as [[a|e|p|] rest]; fin.
        + pose proof (pon_eof_packet (c_cap c) (b :: msg)) as N. destruct (read_eof_packet _ _) as [[a|e|p|] rest]; fin.
      - cbn [fst]. apply on_map, H. }
    destruct (next_row_msg _ _ _ _) as [r rs']. exact N.
Qed.
Lemma ron_map_next {Q O} (read : result_set -> parser (list Q)) (f : list Q -> O) :
  (forall rs, pgoes_on (read rs)) -> rgoes_on (map_next_row read f).
Proof.
  intros H rs c. unfold map_next_row. pose proof (ron_next read H rs c) as K. destruct (next_row read rs c) as [[r rs'] c'].
  cbn in *. apply on_map, K.
Qed.
Lemma ron_while {A B} (next : rs_io (option A)) (step : B -> A -> B) : rgoes_on next ->
  forall fuel acc, rgoes_on (while_rows fuel next step acc).
Proof.
  intros H. induction fuel as [|fuel IH]; intros acc rs c; cbn [while_rows]; [apply on_loop|].
  specialize (H rs c). destruct (next rs c) as [[[[row|]|e|p|] rs'] c']; fin.
  - apply IH.
Qed.
Lemma ron_text rs : pgoes_on (text_rows rs).
Proof. apply pon_text_cols. Qed.
Lemma on_binlog_file row : goes_on (binlog_file_mapper row).
Proof. on. Qed.
Lemma ion_binlog_files : igoes_on (conn_binlog_files false).
Proof.
  unfold conn_binlog_files. apply ion_bind; [auto with on|]. intros rs c. unfold on_rs.
  assert (L : forall fuel files, rgoes_on (fun rs c =>
     match binlog_files_loop fuel files rs c with x => x end)).
  { induction fuel as [|fuel IH]; intros files rs0 c0; cbn [binlog_files_loop]; [apply on_loop|].
    pose proof (ron_map_next text_rows binlog_file_mapper ron_text rs0 c0) as N.
    assert (F : forall f rs1 c1, map_next_row text_rows binlog_file_mapper rs0 c0 = (Ok (Some f), rs1, c1) -> goes_on f).
    { intros f rs1 c1. unfold map_next_row. destruct (next_row text_rows rs0 c0) as [[[[row|]|e|p|] rs2] c2]; cbn; intros E;
        try discriminate. injection E as <- _ _. apply on_binlog_file. }
    destruct (map_next_row text_rows binlog_file_mapper rs0 c0) as [[[[f|]|e|p|] rs1] c1]; fin.
    - specialize (F _ _ _ eq_refl). destruct f as [f|e|p|]; fin.
      apply IH. }
  specialize (L (S (sched_len (c_rd c))) [] rs c). cbv beta in L.
  destruct (binlog_files_loop _ _ _ _) as [[r rs'] c']. exact L.
Qed.
Lemma while_rows_first {A} (P : A -> Prop) (next : rs_io (option A)) :
  (forall rs c a rs' c', next rs c = (Ok (Some a), rs', c') -> P a) ->
  forall fuel acc rs c a rs' c', (forall a, acc = Some a -> P a) ->
  while_rows fuel next (fun first row => match first with None => Some row | Some _ => first end) acc rs c = (Ok (Some a), rs', c') -> P a.
Proof.
  intros H. induction fuel as [|fuel IH]; intros acc rs c a rs' c' Hacc E; cbn [while_rows] in E; [discriminate|].
  destruct (next rs c) as [[[[row|]|e|p|] rs1] c1] eqn:N; try discriminate.
  - refine (IH _ _ _ _ _ _ _ E). intros b Hb. destruct acc as [a0|].
    + injection Hb as <-. apply Hacc. reflexivity.
    + injection Hb as <-. exact (H _ _ _ _ _ N).
  - injection E as E _ _. apply Hacc. exact E.
Qed.
Lemma ion_first_col {V} (f : option bytes -> res V) i rs : (forall v, goes_on (f v)) ->
  igoes_on (o <~ on_rs (rs_first_or_none (map_next_row text_rows (fun row => get_col f row i))) rs ;;
            match o with Some var => v <~ ilift var ;; iret (Some v) | None => iret None end).
Proof.
  intros Hf c. unfold ibind, on_rs, rs_first_or_none.
  set (next := map_next_row text_rows (fun row => get_col f row i)).
  pose proof (ron_while next (fun first row => match first with None => Some row | Some _ => first end)
    (ron_map_next _ _ ron_text) (S (sched_len (c_rd c))) None rs c) as K.
  pose proof (while_rows_first (fun r => goes_on r) next) as F.
  destruct (while_rows _ _ _ _ _ _) as [[r rs'] c'] eqn:W. cbn in K. destruct r as [[v|]|e|p|]; fin.
  - assert (G : goes_on v).
    { refine (F _ _ None _ _ _ _ _ _ W); [|discriminate]. intros rs0 c0 a rs1 c1. unfold next, map_next_row.
      destruct (next_row text_rows rs0 c0) as [[[[row|]|e|p|] rs2] c2]; cbn; intros E; try discriminate.
      injection E as <- _ _. unfold get_col. destruct (_ <=? _)%nat; [apply on_err|]. destruct (nth_error row i); [apply Hf | apply on_index]. }
    unfold ilift, iret. destruct v; fin.
  - apply on_ok.
Qed.
Lemma ion_get_var {V} (f : option bytes -> res V) n g : (forall v, goes_on (f v)) -> igoes_on (conn_get_var false f n g).
Proof. intros Hf. unfold conn_get_var. apply ion_bind; [auto with on|]. intros rs. apply ion_first_col, Hf. Qed.
Lemma ion_get_user_var {V} (f : option bytes -> res V) n : (forall v, goes_on (f v)) -> igoes_on (conn_get_user_var false f n).
Proof. intros Hf. unfold conn_get_user_var. apply ion_bind; [auto with on|]. intros rs. apply ion_first_col, Hf. Qed.
Lemma on_non_null {C V} (f : C -> res (option V)) v : (forall v, goes_on (f v)) -> goes_on (non_null f v).
Proof. intros H. unfold non_null. apply on_bind; [apply H|]. intros [r|]; [apply on_ok | apply on_err]. Qed.
Lemma on_string_text v : goes_on (string_from_text v).
Proof. on. Qed.
Lemma on_u32_text v : goes_on (u32_from_text v).
Proof. on. Qed.
Lemma ion_set_user_var n v : igoes_on (conn_set_user_var false n v).
Proof. ion. Qed.
Lemma ion_required {V} (f : option bytes -> res V) n e : (forall v, goes_on (f v)) -> igoes_on (get_required false f n e).
Proof. intros H. unfold get_required. apply ion_bind; [apply ion_get_var, H|]. intros o. ion. Qed.

(** ** Connecting and streaming *)
Section Auth.
  Variables sha1 sha256 : bytes -> bytes.
  Lemma on_auth_next p input : goes_on (fst (auth_next sha1 sha256 p input)).
  Proof.
    unfold auth_next, full_auth. destruct p as [pw | pw seed stage ssl]; destruct pw; fin.
    destruct stage; fin; try (destruct ssl; fin).
    all: destruct input as [|x y]; fin; repeat (match goal with |- context [if ?c then _ else _] => destruct c end; fin).
  Qed.
  Lemma ion_handshake_loop cap fuel : forall p, igoes_on (handshake_loop sha1 sha256 false cap fuel p).
  Proof.
    induction fuel as [|fuel IH]; intros p; cbn [handshake_loop]; [ion|].
    apply ion_bind; [ion|]. intros msg. apply ion_bind; [apply ion_lift, pon_fst; on|]. intros m.
    destruct m as [ok|e|sw|more]; try solve [ion].
    pose proof (on_auth_next p (am_data more)) as H. destruct (auth_next _ _ _ _) as [r p1]. cbn in H.
    apply ion_bind; [apply ion_lift, H|]. intros resp. apply ion_bind; [destruct resp; ion|]. intros _. apply IH.
  Qed.
  Lemma ion_handshake opts : igoes_on (handshake_rel sha1 sha256 opts).
  Proof.
    unfold handshake_rel. apply ion_bind; [auto with on|]. intros msg.
    apply ion_bind; [apply ion_lift, pon_fst, pon_greeting|]. intros hs.
    apply ion_bind; [intros c; apply on_ok|]. intros _. apply ion_bind; [apply ion_lift; on|]. intros p.
    unfold gen_init_auth_resp.
    pose proof (on_auth_next (set_credential p (o_password opts)) (trim_seed (hs_auth_data_1 hs ++ hs_auth_data_2 hs))) as H.
    destruct (auth_next _ _ _ _) as [r p1]. cbn in H. apply ion_bind; [apply ion_lift, H|]. intros resp. clear H.
    apply ion_bind; [destruct (o_database opts); [apply ion_ret | intros c; apply on_ok]|]. intros _.
    ion_conn. apply ion_bind; [auto with on|]. intros _. ion_conn. apply ion_handshake_loop.
  Qed.
End Auth.
Lemma pon_rotate : pgoes_on read_rotate.
Proof. on. Qed.
Lemma on_check_rotate b msg : goes_on (check_rotate_rel b msg).
Proof.
  unfold check_rotate_rel. pose proof (pon_header msg) as H. destruct (read_event_header msg) as [r body]. cbn in H.
  apply on_bind; [exact H|]. intros eh. destruct (h_type eh); auto with on.
  apply on_bind; [destruct b; [apply on_map|]; auto with on|]. intros body'. apply on_map, pon_fst, pon_rotate.
Qed.
Lemma ion_recv_fde o : igoes_on (recv_fde_rel o).
Proof.
  unfold recv_fde_rel. apply ion_bind; [auto with on|]. intros msg. pose proof (pon_u8 msg) as H.
  destruct (read_u8 msg) as [[n|e|p|] rest]; cbn in H.
  - apply ion_bind; [apply ion_parse; auto with on|]. intros [pv x]. auto with on.
  - auto with on.
  - apply ion_panic. exact (on_panic _ H).
  - apply ion_lift. auto with on.
Qed.
Lemma ion_stream_start b o : igoes_on (recv_stream_start_rel b o).
Proof.
  unfold recv_stream_start_rel. apply ion_bind; [auto with on|]. intros msg. destruct msg as [|h rest]; [auto with on|].
  destruct (_ =? 0xff); [auto with on|]. destruct (_ =? 0xfe).
  { ion_conn. apply ion_bind; [apply ion_parse; auto with on|]. intros _. auto with on. }
  destruct (_ =? 0); [|auto with on]. apply ion_bind; [apply ion_lift, on_check_rotate|]. intros _. apply ion_recv_fde.
Qed.
Lemma ion_request uuid id o : igoes_on (request_stream_rel uuid id o).
Proof.
  unfold request_stream_rel.
  repeat (apply ion_bind; [first [apply ion_set_user_var | apply ion_send
    | apply ion_bind; [apply ion_send | intros; apply ion_com_response]
    | apply ion_required; intros ?; apply on_non_null; intros ?; first [apply on_string_text | apply on_u32_text]] | intros ?]).
  apply ion_stream_start.
Qed.
Lemma ion_recv_event crc s : igoes_on (recv_and_parse_event_rel crc s).
Proof.
  unfold recv_and_parse_event_rel. apply ion_bind; [auto with on|]. intros msg. destruct msg as [|h msg]; [auto with on|].
  destruct (_ && _)%bool; [auto with on|]. destruct (negb _); [auto with on|].
  apply ion_bind; [apply ion_parse, pon_parse_event|]. intros o. auto with on.
Qed.
Lemma ion_next_event_loop crc fuel s : igoes_on (next_event_loop_rel crc fuel s).
Proof.
  induction fuel as [|fuel IH]; cbn [next_event_loop_rel]; [apply ion_lift; auto with on|].
  apply ion_bind; [apply ion_recv_event|]. intros [e| |]; auto with on.
Qed.
Lemma ion_next_event crc s : igoes_on (next_event_rel crc s).
Proof. intros c. unfold next_event_rel. destruct (s_completed s); [apply on_ok | apply ion_next_event_loop]. Qed.

(** ** The programs *)
Section Dml.
  Variables fmt_f32 fmt_f64 : N -> bytes.
  Variable crc : bytes -> N.
  Variable o : dml_options.
  Lemma on_sql_insert db tbl r defs : goes_on (sql_from_insert db tbl r defs).
  Proof. on. Qed.
  Lemma on_sql_delete db tbl r defs : goes_on (sql_from_delete db tbl r defs).
  Proof. on. Qed.
  Lemma on_sql_update db tbl u defs : goes_on (sql_from_update db tbl u defs).
  Proof. on. Qed.
  #[local] Hint Resolve on_sql_insert on_sql_delete on_sql_update : on.
  Lemma ion_dml_event st e : igoes_on (dml_event_rel fmt_f32 fmt_f64 o st e).
  Proof.
    unfold dml_event_rel. destruct (ev_kind e); auto with on.
    - unfold dml_table_map_rel. apply ion_bind; [apply ion_lift, pon_fst; on|]. intros d.
      destruct (find_table _ _); [auto with on|]. destruct (skips _ _); [auto with on|].
      apply ion_bind; [apply ion_lift; auto with on|]. intros tm. destruct (_ || _)%bool; [auto with on|].
      apply ion_bind; [auto with on|]. intros _. apply ion_bind; [auto with on|]. intros defs. auto with on.
    - apply ion_lift. unfold dml_insert_rel. apply on_bind; [apply pon_fst; on|]. intros d. unfold with_table.
      destruct (skips _ _); [auto with on|]. destruct (find_table _ _) as [tm|]; [|auto with on]. on.
    - apply ion_lift. unfold dml_update_rel. apply on_bind; [apply pon_fst; on|]. intros d. unfold with_table.
      destruct (skips _ _); [auto with on|]. destruct (find_table _ _) as [tm|]; [|auto with on].
      apply on_bind; [auto with on|]. intros rows. destruct (negb _); [auto with on|].
      apply on_bind; [auto with on|]. intros q. apply on_map. auto with on.
    - apply ion_lift. unfold dml_delete_rel. apply on_bind; [apply pon_fst; on|]. intros d. unfold with_table.
      destruct (skips _ _); [auto with on|]. destruct (find_table _ _) as [tm|]; [|auto with on]. on.
  Qed.
  Lemma on_dml_loop s fuel : forall st c h, goes_on (fst (fst (fst (dml_loop_rel fmt_f32 fmt_f64 crc o fuel s st c h)))).
  Proof.
    induction fuel as [|fuel IH]; intros st c h; cbn [dml_loop_rel]; [apply on_loop|].
    pose proof (ion_next_event crc s c) as H. destruct (next_event_rel crc s c) as [[[e|]|e|p|] c']; fin.
    pose proof (ion_dml_event st e h) as K.
    destruct (dml_event_rel _ _ _ _ _ _) as [[[out [st'|]]|e'|p|] h']; fin.
    specialize (IH st' c' h'). destruct (dml_loop_rel _ _ _ _ _ _ _ _ _) as [[[r out'] c2] h2]. exact IH.
  Qed.
  Lemma on_print_dmls uuid id file nb c h : goes_on (fst (fst (fst (print_dmls_rel fmt_f32 fmt_f64 crc o uuid id file nb c h)))).
  Proof.
    unfold print_dmls_rel.
    pose proof (ion_request uuid id (bo_set_non_block nb (bo_set_pos 4 (bo_set_filename file bo_new))) c) as H.
    destruct (request_stream_rel _ _ _ _) as [[s|e|p|] c']; fin.
    - apply on_dml_loop.
  Qed.
End Dml.
Section Tools.
  Variables sha1 sha256 : bytes -> bytes.
  Variables fmt_f32 fmt_f64 : N -> bytes.
  Variable crc : bytes -> N.
  Variable compile : bytes -> option (bytes -> bool).
  Lemma on_connect user pw s : goes_on (fst (connect_rel sha1 sha256 user pw s)).
  Proof.
    unfold connect_rel. destruct s as [s|]; [|apply on_err].
    pose proof (ion_handshake sha1 sha256 (mk_opts user pw []) (conn_new s)) as H.
    destruct (handshake_rel _ _ _ _) as [r c]. exact H.
  Qed.
  Lemma on_exec_list user pw s : goes_on (fst (exec_list_rel sha1 sha256 user pw s)).
  Proof.
    unfold exec_list_rel. pose proof (on_connect user pw s) as H.
    destruct (connect_rel _ _ _ _ _) as [[[]|e|p|] [c|]]; fin.
    pose proof (ion_binlog_files c) as K. destruct (conn_binlog_files false c) as [r c']. exact K.
  Qed.
  Lemma on_exec_dml uuid id user pw file until df tf block limit s1 s2 :
    goes_on (fst (fst (fst (exec_dml_rel sha1 sha256 fmt_f32 fmt_f64 crc compile uuid id user pw file until df tf block limit s1 s2)))).
  Proof.
    unfold exec_dml_rel. pose proof (on_connect user pw s1) as H1. pose proof (on_connect user pw s2) as H2.
    destruct (connect_rel _ _ _ _ s1) as [[[]|e|p|] [c|]]; fin.
    destruct (connect_rel _ _ _ _ s2) as [[[]|e|p|] [h|]]; fin.
    assert (C : forall f, goes_on (compile_opt compile f)) by (intros f; on).
    pose proof (C df) as C1. pose proof (C tf) as C2.
    destruct (compile_opt compile df) as [df'|e|p|]; fin.
    destruct (compile_opt compile tf) as [tf'|e|p|]; fin.
    pose proof (on_print_dmls fmt_f32 fmt_f64 crc (mk_do until df' tf' limit) uuid id file (negb block) c h) as H.
    destruct (print_dmls_rel _ _ _ _ _ _ _ _ _ _) as [[[r out] c'] h']. exact H.
  Qed.
  Lemma on_watch_loop s fuel : forall c, goes_on (fst (fst (watch_loop_rel crc fuel s c))).
  Proof.
    induction fuel as [|fuel IH]; intros c; cbn [watch_loop_rel]; [apply on_loop|].
    pose proof (ion_next_event crc s c) as H. destruct (next_event_rel crc s c) as [[[e|]|e|p|] c']; fin.
    - specialize (IH c'). destruct (watch_loop_rel _ _ _ _) as [[r es] c2]. exact IH.
  Qed.
  Lemma on_watch uuid id conf s : goes_on (fst (fst (fst (watch_rel sha1 sha256 crc uuid id conf s)))).
  Proof.
    unfold watch_rel. destruct conf as [user pw|]; [|apply on_unwrap]. pose proof (on_connect user pw s) as H1.
    destruct (connect_rel _ _ _ _ s) as [[[]|e|p|] [c|]]; fin.
    pose proof (ion_binlog_files c) as H2. destruct (conn_binlog_files false c) as [[files|e|p|] c']; fin.
    pose proof (ion_request uuid id bo_new c') as H3. destruct (request_stream_rel _ _ _ c') as [[st|e|p|] c2]; fin.
    pose proof (on_watch_loop st (S (sched_len (c_rd c2))) c2) as H4. destruct (watch_loop_rel _ _ _ _) as [[r es] c3]. exact H4.
  Qed.
End Tools.
