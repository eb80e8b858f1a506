(** * Agreement of the two builds *)
From Coq Require Import Lia.
From Verif Require Import Model.Base Model.BytesParser Model.LenEnc Model.Utf8 Model.Flags Model.Fmt Model.Time Model.Decimal
  Model.Bitmap Model.Cmd Model.Col Model.Row Model.Packet Model.Conn Model.Auth Model.Stmt Model.Extract Model.Session
  Model.Event Model.EventBody Model.Rows Model.Stream Model.Transform Model.MyBinlog Model.Tools Model.Release
  Spec.ReleaseSpec Proofs.BytesParserProofs.
Open Scope N_scope.

(** ** Results *)
Definition agree {A} (r r' : res A) : Prop := stopped_by_checks r \/ r' = r.

Lemma agree_refl {A} (r : res A) : agree r r.
Proof. right; reflexivity. Qed.
Lemma agree_arith {A} (r : res A) : agree (Panic PArith) r.
Proof. left; left; reflexivity. Qed.
Lemma agree_assert {A} (r : res A) : agree (Panic PAssert) r.
Proof. left; right; reflexivity. Qed.
Lemma agree_bind {A B} (r r' : res A) (f g : A -> res B) :
  agree r r' -> (forall a, agree (f a) (g a)) -> agree (rbind r f) (rbind r' g).
Proof.
  intros [[-> | ->] | ->] H; cbn.
  - apply agree_arith.
  - apply agree_assert.
  - destruct r; cbn; [apply H | apply agree_refl ..].
Qed.
Lemma agree_map {A B} (f : A -> B) (r r' : res A) : agree r r' -> agree (rmap f r) (rmap f r').
Proof. intros H. apply agree_bind; [exact H | intros; apply agree_refl]. Qed.

Lemma csub_agree k a b : agree (csub a b) (Ok (rsub k a b)).
Proof. unfold csub, rsub. destruct (a <? b); [apply agree_arith | apply agree_refl]. Qed.
Lemma cadd_agree k a b : agree (cadd k a b) (Ok (wadd k a b)).
Proof.
  unfold cadd, wadd. destruct (2 ^ k <=? a + b) eqn:E; [apply agree_arith|].
  apply N.leb_gt in E. rewrite N.mod_small by exact E. apply agree_refl.
Qed.
Lemma cmul_agree k a b : agree (cmul k a b) (Ok (wmul k a b)).
Proof.
  unfold cmul, wmul. destruct (2 ^ k <=? a * b) eqn:E; [apply agree_arith|].
  apply N.leb_gt in E. rewrite N.mod_small by exact E. apply agree_refl.
Qed.

(** ** Parsers *)
Definition pagree {A} (p q : parser A) : Prop := forall bs, stopped_by_checks (fst (p bs)) \/ q bs = p bs.

Lemma pagree_refl {A} (p : parser A) : pagree p p.
Proof. intros bs; right; reflexivity. Qed.
Lemma pagree_bind {A B} (p q : parser A) (f g : A -> parser B) :
  pagree p q -> (forall a, pagree (f a) (g a)) -> pagree (pbind p f) (pbind q g).
Proof.
  intros H K bs. unfold pbind. destruct (H bs) as [S | ->].
  - left. destruct (p bs) as [[a|e|w|] rest]; destruct S as [S|S]; cbn in *; try discriminate; injection S as ->.
    + left; reflexivity.
    + right; reflexivity.
  - destruct (p bs) as [[a|e|w|] rest]; [apply K | right; reflexivity ..].
Qed.
Lemma pagree_lift {A} (r r' : res A) : agree r r' -> pagree (plift r) (plift r').
Proof. intros [H | ->] bs; [left; exact H | right; reflexivity]. Qed.
Lemma pagree_map {A B} (f : A -> B) (p q : parser A) : pagree p q -> pagree (pmap f p) (pmap f q).
Proof. intros H. apply pagree_bind; [exact H | intros; apply pagree_refl]. Qed.
(** a checked computation, followed by the rest, against the unchecked one put in directly *)
Lemma pagree_calc {A B} (r : res A) (a : A) (f : A -> parser B) (g : parser B) :
  agree r (Ok a) -> pagree (f a) g -> pagree (pbind (plift r) f) g.
Proof.
  intros [[-> | ->] | <-] H bs.
  - left; left; reflexivity.
  - left; right; reflexivity.
  - apply H.
Qed.
Lemma pagree_peek {A} (p q : parser A) : pagree p q -> pagree (ppeek p) (ppeek q).
Proof. intros H bs. unfold ppeek; cbn. destruct (H bs) as [S | ->]; [left; exact S | right; reflexivity]. Qed.
Lemma pagree_repeat {A} (p q : parser A) n : pagree p q -> pagree (prepeat n p) (prepeat n q).
Proof.
  intros H. induction n as [|n IH]; cbn [prepeat]; [apply pagree_refl|].
  apply pagree_bind; [exact H|]. intros a. apply pagree_bind; [exact IH|]. intros l. apply pagree_refl.
Qed.
Lemma pagree_while {A} (p q : parser A) : pagree p q -> pagree (while_remaining p) (while_remaining q).
Proof.
  intros H bs. unfold while_remaining. generalize (length bs) as n. intros n. revert bs.
  induction n as [|n IH]; intros bs; destruct bs as [|b bs]; try (right; reflexivity).
  cbn [pwhile]. apply pagree_bind; [exact H|]. intros a. apply pagree_bind; [|intros; apply pagree_refl].
  exact IH.
Qed.
Lemma pagree_fst {A} (p q : parser A) bs : pagree p q -> agree (fst (p bs)) (fst (q bs)).
Proof. intros H. destruct (H bs) as [S | ->]; [left; exact S | right; reflexivity]. Qed.
Lemma pagree_of {A} (p q : parser A) : (forall bs, pagree (fun _ => p bs) (fun _ => q bs)) -> pagree p q.
Proof. intros H bs. exact (H bs bs). Qed.

#[local] Hint Resolve agree_refl agree_arith agree_assert csub_agree cadd_agree cmul_agree pagree_refl : rel.

(** decompose two parsers or results of the same shape *)
Ltac rel_step :=
  match goal with
  | |- agree ?a ?a => apply agree_refl
  | |- pagree ?a ?a => apply pagree_refl
  | |- agree (rbind _ _) (rbind _ _) => apply agree_bind; [|intros ?]
  | |- agree (rmap _ _) (rmap _ _) => apply agree_map
  | |- pagree (pbind _ _) (pbind _ _) => apply pagree_bind; [|intros ?]
  | |- pagree (pmap _ _) (pmap _ _) => apply pagree_map
  | |- pagree (plift _) (plift _) => apply pagree_lift
  | |- pagree (ppeek _) (ppeek _) => apply pagree_peek
  | |- pagree (prepeat _ _) (prepeat _ _) => apply pagree_repeat
  | |- pagree (while_remaining _) (while_remaining _) => apply pagree_while
  | |- pagree (if ?b then _ else _) (if ?b then _ else _) => destruct b eqn:?
  | |- agree (if ?b then _ else _) (if ?b then _ else _) => destruct b eqn:?
  | |- pagree (match ?x with _ => _ end) (match ?x with _ => _ end) => destruct x eqn:?
  | |- agree (match ?x with _ => _ end) (match ?x with _ => _ end) => destruct x eqn:?
  end.
Ltac rel := repeat rel_step; auto with rel.

(** ** bytes-parser and the greeting *)
Lemma read_le_f64_rel_ok : pagree read_le_f64 read_le_f64_rel.
Proof.
  intros bs. unfold read_le_f64, read_le_f64_rel. destruct (length bs <? 8)%nat; [|right; reflexivity].
  destruct (csub_agree 64 4 (blen bs)) as [[E|E] | E]; rewrite ?E; cbn.
  - left; left; reflexivity.
  - left; right; reflexivity.
  - rewrite <- E. right; reflexivity.
Qed.
#[local] Hint Resolve read_le_f64_rel_ok : rel.
Lemma read_initial_handshake_rel_ok : pagree read_initial_handshake read_initial_handshake_rel.
Proof.
  unfold read_initial_handshake, read_initial_handshake_rel. rel.
  eapply pagree_calc; [apply (csub_agree 8)|]. rel.
Qed.

(** ** Times and decimals *)
Lemma neg64_ok p : agree (neg64 p) (Ok (neg64_rel p)).
Proof. unfold neg64, neg64_rel. destruct (p =? 2 ^ 63); auto with rel. Qed.
Lemma packed_from_time_binary_rel_ok frac : pagree (packed_from_time_binary frac) (packed_from_time_binary_rel frac).
Proof.
  unfold packed_from_time_binary, packed_from_time_binary_rel.
  apply pagree_bind; [apply pagree_refl|]. intros hms.
  apply pagree_bind; [apply pagree_refl|]. intros packed.
  destruct (negb _); [|apply pagree_refl].
  eapply pagree_calc; [apply neg64_ok|]. apply pagree_refl.
Qed.
Lemma time_from_binlog_rel_ok frac : pagree (time_from_binlog frac) (time_from_binlog_rel frac).
Proof. apply pagree_bind; [apply packed_from_time_binary_rel_ok|]. intros [packed negative]. apply pagree_refl. Qed.
Lemma plift_pret {A} (r : res A) (a : A) : agree r (Ok a) -> pagree (plift r) (pret a).
Proof. intros H. exact (pagree_lift _ _ H). Qed.
Lemma packed_from_datetime_binary_rel_ok frac :
  pagree (packed_from_datetime_binary frac) (packed_from_datetime_binary_rel frac).
Proof.
  unfold packed_from_datetime_binary, packed_from_datetime_binary_rel.
  apply pagree_bind; [apply pagree_refl|]. intros hms.
  apply pagree_bind.
  - destruct frac as [|[[[?|?|]|[?|?|]|]|[[?|?|]|[?|?|]|]|]]; try apply pagree_refl;
      (apply pagree_bind; [apply pagree_refl|]; intros part; apply plift_pret, cadd_agree).
  - intros packed. destruct (negb _); [|apply pagree_refl]. apply plift_pret, neg64_ok.
Qed.
Lemma datetime_from_binlog_rel_ok frac : pagree (datetime_from_binlog frac) (datetime_from_binlog_rel frac).
Proof. apply pagree_bind; [apply packed_from_datetime_binary_rel_ok|]. intros packed. apply pagree_refl. Qed.
Lemma calc_res {A B} (r : res A) (a : A) (f : A -> res B) (g : res B) :
  agree r (Ok a) -> agree (f a) g -> agree (rbind r f) g.
Proof.
  intros [[-> | ->] | <-] H; cbn; auto with rel.
Qed.
Lemma time_from_text_rel_ok bs : agree (time_from_text bs) (time_from_text_rel bs).
Proof.
  unfold time_from_text, time_from_text_rel. apply agree_bind; [apply agree_refl|]. intros s.
  destruct (split_on _ (trim_start s)) as [|p0 [|p1 [|p2 [|]]]]; try apply agree_refl.
  apply agree_bind; [apply agree_refl|]. intros hours.
  eapply calc_res with (a := trunc 32 (Z.abs_N hours)).
  { destruct (hours =? _)%Z; auto with rel. }
  apply agree_bind; [apply agree_refl|]. intros minute.
  destruct (split_on _ p2) as [|s0 [|s1 [|]]]; try apply agree_refl.
  apply agree_bind; [apply agree_refl|]. intros second.
  apply agree_bind; [|intros; apply agree_refl].
  destruct (length s1 =? 3)%nat; [|apply agree_refl].
  unfold rmap. apply agree_bind; [apply agree_refl|]. intros ms. apply cmul_agree.
Qed.
Lemma read_decimal_rel_ok intg frac : pagree (read_decimal intg frac) (read_decimal_rel intg frac).
Proof.
  unfold read_decimal, read_decimal_rel. do 2 (apply pagree_bind; [apply pagree_refl|]; intros ?).
  apply pagree_of. intros bs. destruct bs as [|b0 bs]; [apply pagree_refl|].
  intros bs'. clear bs'. revert bs. intros bs.
  match goal with |- _ \/ ?q = ?p => match p with ?P ?l => match q with ?Q l => apply (fun H : pagree P Q => H l) end end end.
  do 3 (apply pagree_bind; [apply pagree_refl|]; intros ?).
  apply pagree_bind; [|intros; apply pagree_refl].
  destruct (0 <? _); [|apply pagree_refl].
  do 2 (apply pagree_bind; [apply pagree_refl|]; intros ?).
  eapply pagree_calc; [apply cmul_agree | apply pagree_refl].
Qed.
#[local] Hint Resolve time_from_binlog_rel_ok datetime_from_binlog_rel_ok read_decimal_rel_ok : rel.

(** ** Values and rows *)
Lemma read_binary_value_rel_ok ct : pagree (read_binary_value ct) (read_binary_value_rel ct).
Proof. destruct ct; try apply pagree_refl. apply pagree_map, read_le_f64_rel_ok. Qed.
Lemma read_binlog_value_rel_ok m : pagree (read_binlog_value m) (read_binlog_value_rel m).
Proof.
  destruct m; try apply pagree_refl; try (apply pagree_map; auto with rel).
  - eapply pagree_calc; [apply cadd_agree | apply pagree_refl].
  - cbn [read_binlog_value read_binlog_value_rel]. unfold rsub.
    destruct (prec <? frac); [intros bs; left; right; reflexivity|]. apply pagree_map; auto with rel.
  - apply pagree_bind; [apply pagree_refl|]. intros len. destruct (_ <? len); [intros bs; left; right; reflexivity|].
    apply pagree_refl.
Qed.
#[local] Hint Resolve read_binary_value_rel_ok read_binlog_value_rel_ok : rel.
Lemma read_binary_cols_rel_ok cts bits : forall idx, pagree (read_binary_cols cts bits idx) (read_binary_cols_rel cts bits idx).
Proof. induction cts as [|ct cts IH]; intros idx; cbn [read_binary_cols read_binary_cols_rel]; rel. Qed.
#[local] Hint Resolve read_binary_cols_rel_ok : rel.
Lemma read_binary_row_rel_ok cts : pagree (read_binary_row cts) (read_binary_row_rel cts).
Proof. unfold read_binary_row, read_binary_row_rel. rel. Qed.
Lemma read_log_cols_rel_ok col_bm metas n : forall i, pagree (read_log_cols n i col_bm metas) (read_log_cols_rel n i col_bm metas).
Proof. induction n as [|n IH]; intros i; cbn [read_log_cols read_log_cols_rel]; rel. Qed.
#[local] Hint Resolve read_log_cols_rel_ok : rel.
Lemma read_log_row_rel_ok n_cols col_bm metas : pagree (read_log_row n_cols col_bm metas) (read_log_row_rel n_cols col_bm metas).
Proof. unfold read_log_row, read_log_row_rel. rel. Qed.
#[local] Hint Resolve read_log_row_rel_ok : rel.

(** ** Events *)
Lemma read_fde_rel_ok : pagree read_fde read_fde_rel.
Proof.
  unfold read_fde, read_fde_rel. do 3 (apply pagree_bind; [apply pagree_refl|]; intros ?).
  eapply pagree_calc; [apply (csub_agree 8) | apply pagree_refl].
Qed.
Lemma data_len_agree h : agree (data_len h) (Ok (data_len_rel h)).
Proof. apply csub_agree. Qed.
#[local] Hint Resolve data_len_agree : rel.
Lemma from_fde_bytes_rel_ok : pagree from_fde_bytes from_fde_bytes_rel.
Proof.
  unfold from_fde_bytes, from_fde_bytes_rel. apply pagree_bind; [apply pagree_refl|]. intros h.
  eapply pagree_calc; [apply data_len_agree|]. apply pagree_bind; [apply pagree_refl|]. intros raw.
  destruct (read_fde_rel_ok raw) as [S | ->]; [|apply pagree_refl].
  destruct (read_fde raw) as [r rest]. destruct S as [S|S]; cbn in S; subst r; intros bs; left; [left|right]; reflexivity.
Qed.
Lemma from_binlog_file_rel_ok : pagree from_binlog_file from_binlog_file_rel.
Proof.
  unfold from_binlog_file, from_binlog_file_rel. apply pagree_bind; [apply pagree_refl|]. intros v.
  destruct v; try apply pagree_refl. apply pagree_bind; [apply from_fde_bytes_rel_ok | intros; apply pagree_refl].
Qed.
Lemma split_last4_agree bs : agree (rmap (fun n => split_at n bs) (csub (blen bs) 4)) (split_last4 bs).
Proof.
  unfold csub, split_last4, rsub. destruct (blen bs <? 4) eqn:E; [apply agree_arith|]. cbn [rmap rbind].
  apply N.ltb_ge in E. replace (blen bs <? blen bs - 4) with false by (symmetry; apply N.ltb_ge; lia). apply agree_refl.
Qed.
Lemma drop_last4_agree bs : agree (rmap (fun n => fst (split_at n bs)) (csub (blen bs) 4)) (Ok (drop_last4 bs)).
Proof.
  unfold csub, drop_last4, rsub. destruct (blen bs <? 4) eqn:E; [apply agree_arith|]. cbn [rmap rbind].
  apply N.ltb_ge in E. replace (blen bs <? blen bs - 4) with false by (symmetry; apply N.ltb_ge; lia). apply agree_refl.
Qed.
(** the pieces around a checked subtraction that the wrapped helpers cover at once *)
Lemma split_calc {A} (bs : bytes) (f : bytes * bytes -> parser A) :
  pagree (pbind (plift (csub (blen bs) 4)) (fun n => f (split_at n bs))) (pbind (plift (split_last4 bs)) f).
Proof.
  pose proof (split_last4_agree bs) as H. unfold csub in *. destruct (blen bs <? 4).
  - intros l; left; left; reflexivity.
  - destruct H as [[H|H] | H]; try discriminate. rewrite H. apply pagree_refl.
Qed.
Lemma split_calc_res {A} (bs : bytes) (f : bytes * bytes -> res A) :
  agree (rbind (csub (blen bs) 4) (fun n => f (split_at n bs))) (rbind (split_last4 bs) f).
Proof.
  pose proof (split_last4_agree bs) as H. unfold csub in *. destruct (blen bs <? 4).
  - apply agree_arith.
  - destruct H as [[H|H] | H]; try discriminate. rewrite H. apply agree_refl.
Qed.
Lemma check_checksum_rel_ok crc : pagree (check_checksum crc) (check_checksum_rel crc).
Proof.
  unfold check_checksum, check_checksum_rel. do 2 (apply pagree_bind; [apply pagree_refl|]; intros ?).
  apply (split_calc _ (fun p => let '(raw_data, checksum_data) := p in _)).
Qed.
#[local] Hint Resolve check_checksum_rel_ok : rel.
Lemma parse_event_rel_ok crc pv validate : pagree (parse_event crc pv validate) (parse_event_rel crc pv validate).
Proof.
  unfold parse_event, parse_event_rel. apply pagree_bind; [rel|]. intros _.
  apply pagree_bind; [apply pagree_refl|]. intros h. eapply pagree_calc; [apply data_len_agree|].
  apply pagree_bind; [apply pagree_refl|]. intros data. destruct (p_checksum pv); [|apply pagree_refl].
  pose proof (drop_last4_agree data) as H. unfold csub in *. destruct (blen data <? 4).
  - intros l; left; left; reflexivity.
  - destruct H as [[H|H] | H]; try discriminate. cbn [rmap rbind] in H. injection H as H. rewrite H. apply pagree_refl.
Qed.
Lemma skip_event_rel_ok pv : pagree (skip_event pv) (skip_event_rel pv).
Proof.
  unfold skip_event, skip_event_rel. apply pagree_bind; [apply pagree_refl|]. intros h.
  eapply pagree_calc; [apply data_len_agree | apply pagree_refl].
Qed.
Lemma checksum_event_rel_ok crc pv bs : agree (checksum_event crc pv bs) (checksum_event_rel crc pv bs).
Proof.
  unfold checksum_event, checksum_event_rel. destruct (negb _); [apply agree_refl|].
  do 2 (apply agree_bind; [apply agree_refl|]; intros ?).
  apply (split_calc_res _ (fun p => let '(raw_data, checksum_data) := p in _)).
Qed.

(** ** LOAD DATA events *)
Lemma sum_u32_agree lens : forall acc, agree (sum_u32 acc lens) (Ok (fold_left (fun acc l => wadd 32 acc (b2n l)) lens acc)).
Proof.
  induction lens as [|l lens IH]; intros acc; cbn [sum_u32 fold_left]; [apply agree_refl|].
  eapply calc_res; [apply cadd_agree | apply IH].
Qed.
Lemma read_load_names_rel_ok a b c : pagree (read_load_names a b c) (read_load_names_rel a b c).
Proof.
  unfold read_load_names, read_load_names_rel. apply pagree_bind; [apply pagree_refl|]. intros lens.
  eapply pagree_calc; [apply sum_u32_agree|]. eapply pagree_calc; [apply cadd_agree | apply pagree_refl].
Qed.
#[local] Hint Resolve read_load_names_rel_ok : rel.
Lemma read_load_rel_ok : pagree read_load read_load_rel.
Proof. unfold read_load, read_load_rel. rel. Qed.
Lemma read_new_load_rel_ok : pagree read_new_load read_new_load_rel.
Proof. unfold read_new_load, read_new_load_rel. rel. Qed.

(** ** Table maps and row events *)
Lemma read_raw_table_map_rel_ok : pagree read_raw_table_map read_raw_table_map_rel.
Proof.
  unfold read_raw_table_map, read_raw_table_map_rel. do 12 (apply pagree_bind; [apply pagree_refl|]; intros ?).
  eapply pagree_calc; [apply cadd_agree | apply pagree_refl].
Qed.
Lemma table_map_of_rel_ok d : agree (table_map_of d) (table_map_of_rel d).
Proof.
  apply agree_bind; [|intros; apply agree_refl]. apply pagree_fst, read_raw_table_map_rel_ok.
Qed.
Lemma read_row_image_rel_ok n bm k metas : pagree (read_row_image n bm k metas) (read_row_image_rel n bm k metas).
Proof. unfold read_row_image, read_row_image_rel. rel. Qed.
#[local] Hint Resolve read_row_image_rel_ok : rel.
Lemma read_n_cols_rel_ok : pagree read_n_cols read_n_cols_rel.
Proof.
  unfold read_n_cols, read_n_cols_rel. do 2 (apply pagree_bind; [apply pagree_refl|]; intros ?).
  eapply pagree_calc; [apply cadd_agree | apply pagree_refl].
Qed.
#[local] Hint Resolve read_n_cols_rel_ok : rel.
Lemma read_rows_v2_rel_ok n metas : pagree (read_rows_v2 n metas) (read_rows_v2_rel n metas).
Proof. unfold read_rows_v2, read_rows_v2_rel. eapply pagree_calc; [apply (csub_agree 64)|]. rel. Qed.
Lemma read_update_rows_rel_ok n metas : pagree (read_update_rows n metas) (read_update_rows_rel n metas).
Proof. unfold read_update_rows, read_update_rows_rel. eapply pagree_calc; [apply (csub_agree 64)|]. rel. Qed.
Lemma rows_of_rel_ok d metas : agree (rows_of d metas) (rows_of_rel d metas).
Proof. apply pagree_fst, read_rows_v2_rel_ok. Qed.
Lemma update_rows_of_rel_ok d metas : agree (update_rows_of d metas) (update_rows_of_rel d metas).
Proof. apply pagree_fst, read_update_rows_rel_ok. Qed.

(** ** SQL and JSON *)
Lemma lit_time_rel_ok t : agree (lit_time t) (Ok (lit_time_rel t)).
Proof.
  unfold lit_time, lit_time_rel. destruct (_ || _)%bool eqn:E; [apply agree_arith|].
  apply orb_false_iff in E. destruct E as [E E3]. apply orb_false_iff in E. destruct E as [E1 E2].
  apply Z.ltb_ge in E1. apply Z.leb_gt in E2, E3.
  unfold wrap_i32. rewrite to_signed_unsigned; [apply agree_refl | lia |]. change (Z.of_N 32 - 1)%Z with 31%Z. lia.
Qed.
Lemma lit_bit_loop_rel_ok bs : forall i n, agree (lit_bit_loop bs i n) (Ok (lit_bit_loop_rel bs i n)).
Proof.
  induction bs as [|b bs IH]; intros i n; cbn [lit_bit_loop lit_bit_loop_rel]; [apply agree_refl|].
  destruct (64 <=? N.shiftl i 3) eqn:E; [apply agree_arith|]. apply N.leb_gt in E.
  eapply calc_res; [apply cadd_agree|]. rewrite (N.mod_small (N.shiftl i 3) 64) by exact E. apply IH.
Qed.
Lemma json_time_rel_ok t : agree (json_time t) (Ok (json_time_rel t)).
Proof.
  unfold json_time, json_time_rel. eapply calc_res; [apply cmul_agree|]. eapply calc_res; [apply cadd_agree|].
  apply agree_refl.
Qed.
Lemma json_bit_loop_rel_ok bs : forall i n, agree (json_bit_loop bs i n) (Ok (json_bit_loop_rel bs i n)).
Proof.
  induction bs as [|b bs IH]; intros i n; cbn [json_bit_loop json_bit_loop_rel]; [apply agree_refl|].
  destruct (64 <=? i * 8) eqn:E; [apply agree_arith|]. apply N.leb_gt in E.
  eapply calc_res; [apply cadd_agree|]. rewrite (N.mod_small (i * 8) 64) by exact E. apply IH.
Qed.
Lemma agree_seq {A B} (f g : A -> res B) l : (forall a, agree (f a) (g a)) -> agree (sequence (map f l)) (sequence (map g l)).
Proof.
  intros H. induction l as [|a l IH]; cbn [map sequence]; [apply agree_refl|]. rel.
Qed.

Section Sql.
  Variables fmt_f32 fmt_f64 : N -> bytes.
  Lemma to_sql_literal_rel_ok p : agree (to_sql_literal fmt_f32 fmt_f64 p) (to_sql_literal_rel fmt_f32 fmt_f64 p).
  Proof.
    unfold to_sql_literal_rel. destruct (sv_val p) eqn:E; try apply agree_refl; unfold to_sql_literal; rewrite E.
    - apply (agree_map (fun s => (s, true)) _ _ (lit_time_rel_ok _)).
    - apply (agree_map (fun n => (fmt_n n, false)) _ _ (lit_bit_loop_rel_ok _ 0 0)).
  Qed.
  Lemma fill_rel_ok frs : forall params, agree (fill fmt_f32 fmt_f64 frs params) (fill_rel fmt_f32 fmt_f64 frs params).
  Proof.
    induction frs as [|f frs IH]; intros params; cbn [fill fill_rel]; [apply agree_refl|].
    destruct (beqb _ _); [|apply agree_map, IH]. destruct params as [|p params]; [apply IH|].
    apply agree_bind; [apply agree_map, to_sql_literal_rel_ok|]. intros s. apply agree_map, IH.
  Qed.
  Lemma sql_list_rel_ok q : agree (sql_list fmt_f32 fmt_f64 q) (sql_list_rel fmt_f32 fmt_f64 q).
  Proof. apply agree_seq. intros ps. apply fill_rel_ok. Qed.
End Sql.

Section Json.
  Variable widen : N -> N.
  Lemma to_json_value_rel_ok sv : agree (to_json_value widen sv) (to_json_value_rel widen sv).
  Proof.
    unfold to_json_value_rel. destruct (sv_val sv) eqn:E; try apply agree_refl; unfold to_json_value; rewrite E.
    - apply (agree_map (fun s => (JString s, false)) _ _ (json_time_rel_ok _)).
    - apply (agree_map (fun n => (JInt (Z.of_N n), false)) _ _ (json_bit_loop_rel_ok _ 0 0)).
  Qed.
  #[local] Hint Resolve to_json_value_rel_ok : rel.
  Lemma json_cols_rel_ok cells : forall m enc, agree (json_cols widen cells m enc) (json_cols_rel widen cells m enc).
  Proof.
    induction cells as [|[def col] cells IH]; intros m enc; cbn [json_cols json_cols_rel]; [apply agree_refl|].
    apply agree_bind; [apply agree_refl|]. intros sv. apply agree_bind; [auto with rel|]. intros p. apply IH.
  Qed.
  Lemma json_cols_after_rel_ok cells : forall m enc, agree (json_cols_after widen cells m enc) (json_cols_after_rel widen cells m enc).
  Proof.
    induction cells as [|[def col] cells IH]; intros m enc; cbn [json_cols_after json_cols_after_rel]; [apply agree_refl|].
    apply agree_bind; [apply agree_refl|]. intros sv. apply agree_bind; [auto with rel|]. intros p. apply IH.
  Qed.
  Lemma json_from_insert_rel_ok db tbl r defs : agree (json_from_insert widen db tbl r defs) (json_from_insert_rel widen db tbl r defs).
  Proof.
    apply agree_bind; [apply agree_refl|]. intros ds. apply agree_seq. intros cols. apply agree_map, json_cols_rel_ok.
  Qed.
  Lemma json_from_delete_rel_ok db tbl r defs : agree (json_from_delete widen db tbl r defs) (json_from_delete_rel widen db tbl r defs).
  Proof.
    apply agree_bind; [apply agree_refl|]. intros ds. apply agree_seq. intros cols. apply agree_map, json_cols_rel_ok.
  Qed.
  Lemma json_from_update_rel_ok db tbl u defs : agree (json_from_update widen db tbl u defs) (json_from_update_rel widen db tbl u defs).
  Proof.
    do 2 (apply agree_bind; [apply agree_refl|]; intros ?). apply agree_seq. intros cols.
    apply agree_bind; [apply json_cols_rel_ok|]. intros b. apply agree_bind; [apply json_cols_after_rel_ok|].
    intros after. apply agree_refl.
  Qed.
End Json.

(** ** Connections *)
Definition iagree {A} (m m' : io A) : Prop := forall c, stopped_by_checks (fst (m c)) \/ m' c = m c.

Lemma iagree_refl {A} (m : io A) : iagree m m.
Proof. intros c; right; reflexivity. Qed.
Lemma iagree_bind {A B} (m m' : io A) (f g : A -> io B) :
  iagree m m' -> (forall a, iagree (f a) (g a)) -> iagree (ibind m f) (ibind m' g).
Proof.
  intros H K c. unfold ibind. destruct (H c) as [S | ->].
  - left. destruct (m c) as [[a|e|w|] c']; destruct S as [S|S]; cbn in *; try discriminate; injection S as ->.
    + left; reflexivity.
    + right; reflexivity.
  - destruct (m c) as [[a|e|w|] c']; [apply K | right; reflexivity ..].
Qed.
Lemma iagree_lift {A} (r r' : res A) : agree r r' -> iagree (ilift r) (ilift r').
Proof. intros [H | ->] c; [left; exact H | right; reflexivity]. Qed.
Lemma iagree_parse {A} (p q : parser A) msg : pagree p q -> iagree (parse p msg) (parse q msg).
Proof. intros H. apply iagree_lift, pagree_fst, H. Qed.
(** computations that look at the connection first *)
Ltac at_conn :=
  let c := fresh "c" in intros c; cbv beta;
  match goal with |- stopped_by_checks (fst (?P ?l)) \/ ?Q ?l = ?P ?l => cut (iagree P Q); [intros H; exact (H l)|] end.

Ltac irel_step :=
  match goal with
  | |- iagree ?a ?a => apply iagree_refl
  | |- iagree (ibind _ _) (ibind _ _) => apply iagree_bind; [|intros ?]
  | |- iagree (ilift _) (ilift _) => apply iagree_lift
  | |- iagree (if ?b then _ else _) (if ?b then _ else _) => destruct b eqn:?
  | |- iagree (match ?x with _ => _ end) (match ?x with _ => _ end) => destruct x eqn:?
  end.
Ltac irel := repeat irel_step; auto with irel rel.
#[local] Hint Resolve iagree_refl : irel.

Lemma inc_pkt_nr_ok : iagree (inc_pkt_nr true) (inc_pkt_nr false).
Proof. intros c. unfold inc_pkt_nr. destruct (c_pkt_nr c =? 255); [left; left; reflexivity | right; reflexivity]. Qed.
#[local] Hint Resolve inc_pkt_nr_ok : irel.
Lemma send_packet_ok bs : iagree (send_packet true bs) (send_packet false bs).
Proof. unfold send_packet. do 3 (apply iagree_bind; [apply iagree_refl|]; intros ?). apply inc_pkt_nr_ok. Qed.
#[local] Hint Resolve send_packet_ok : irel.
Lemma send_loop_ok fuel : forall bs, iagree (send_loop true fuel bs) (send_loop false fuel bs).
Proof.
  induction fuel as [|fuel IH]; intros bs; cbn [send_loop]; [apply iagree_refl|].
  destruct (max_payload <=? blen bs); [|apply send_packet_ok].
  apply iagree_bind; [apply send_packet_ok|]. intros _. apply IH.
Qed.
Lemma send_msg_ok msg reset : iagree (send_msg true msg reset) (send_msg false msg reset).
Proof. unfold send_msg. apply iagree_bind; [apply iagree_refl|]. intros _. apply send_loop_ok. Qed.
#[local] Hint Resolve send_msg_ok : irel.

(** the commands: every one sends messages and otherwise does the same in both builds *)
Ltac cmd := repeat (first [apply iagree_refl | apply send_msg_ok | apply iagree_bind; [|intros ?]]).
Lemma query_exec_ok sql : iagree (query_exec true sql) (query_exec false sql).
Proof. unfold query_exec. cmd. Qed.
Lemma query_qry_ok sql : iagree (query_qry true sql) (query_qry false sql).
Proof. unfold query_qry. cmd. Qed.
Lemma stmt_prepare_ok sql : iagree (stmt_prepare true sql) (stmt_prepare false sql).
Proof. unfold stmt_prepare. cmd. Qed.
Lemma stmt_exec_ok ps params : iagree (stmt_exec true ps params) (stmt_exec false ps params).
Proof. unfold stmt_exec. cmd. Qed.
Lemma stmt_qry_ok ps params : iagree (stmt_qry true ps params) (stmt_qry false ps params).
Proof. unfold stmt_qry. cmd. Qed.
Lemma stmt_close_ok ps : iagree (stmt_close true ps) (stmt_close false ps).
Proof. apply send_msg_ok. Qed.
Lemma stmt_exec_close_ok ps params : iagree (stmt_exec_close true ps params) (stmt_exec_close false ps params).
Proof.
  intros c. unfold stmt_exec_close. destruct (stmt_exec_ok ps params c) as [S | ->].
  - left. destruct (stmt_exec true ps params c) as [r c']. destruct S as [S|S]; cbn in S; subst r; [left|right]; reflexivity.
  - destruct (stmt_exec true ps params c) as [[a|e|w|] c']; try (right; reflexivity);
      (destruct (stmt_close_ok ps c') as [S | ->]; [|right; reflexivity]; left;
       destruct (stmt_close true ps c') as [r c'']; destruct S as [S|S]; cbn in S; subst r; [left|right]; reflexivity).
Qed.
#[local] Hint Resolve query_exec_ok query_qry_ok stmt_prepare_ok stmt_exec_ok stmt_qry_ok stmt_exec_close_ok : irel.
Lemma conn_init_db_ok db : iagree (conn_init_db true db) (conn_init_db false db).
Proof. unfold conn_init_db. cmd. Qed.
Lemma conn_create_db_ok db : iagree (conn_create_db true db) (conn_create_db false db).
Proof. unfold conn_create_db. cmd. Qed.
Lemma conn_drop_db_ok db : iagree (conn_drop_db true db) (conn_drop_db false db).
Proof. unfold conn_drop_db. cmd. Qed.
Lemma conn_refresh_ok n : iagree (conn_refresh true n) (conn_refresh false n).
Proof. unfold conn_refresh. cmd. Qed.
Lemma conn_process_kill_ok n : iagree (conn_process_kill true n) (conn_process_kill false n).
Proof. unfold conn_process_kill. cmd. Qed.
Lemma conn_reset_connection_ok : iagree (conn_reset_connection true) (conn_reset_connection false).
Proof. unfold conn_reset_connection. cmd. Qed.
Lemma conn_register_slave_ok n : iagree (conn_register_slave true n) (conn_register_slave false n).
Proof. unfold conn_register_slave. cmd. Qed.
Lemma conn_field_list_ok t w : iagree (conn_field_list true t w) (conn_field_list false t w).
Proof. unfold conn_field_list. cmd. Qed.
Lemma conn_statistics_ok : iagree (conn_statistics true) (conn_statistics false).
Proof. unfold conn_statistics. cmd. Qed.
Lemma conn_debug_ok : iagree (conn_debug true) (conn_debug false).
Proof. unfold conn_debug. cmd. Qed.
Lemma conn_ping_ok : iagree (conn_ping true) (conn_ping false).
Proof. unfold conn_ping. cmd. Qed.
Lemma conn_set_multi_stmts_ok b : iagree (conn_set_multi_stmts true b) (conn_set_multi_stmts false b).
Proof. unfold conn_set_multi_stmts. cmd. Qed.
Lemma conn_process_info_ok : iagree (conn_process_info true) (conn_process_info false).
Proof. unfold conn_process_info. cmd. Qed.
Lemma conn_quit_ok : iagree (conn_quit true) (conn_quit false).
Proof. apply send_msg_ok. Qed.
Lemma conn_binlog_files_ok : iagree (conn_binlog_files true) (conn_binlog_files false).
Proof. unfold conn_binlog_files. apply iagree_bind; [apply query_qry_ok | intros; apply iagree_refl]. Qed.
Lemma conn_get_var_ok {V} (f : option bytes -> res V) n g : iagree (conn_get_var true f n g) (conn_get_var false f n g).
Proof. unfold conn_get_var. apply iagree_bind; [apply query_qry_ok | intros; apply iagree_refl]. Qed.
Lemma conn_get_user_var_ok {V} (f : option bytes -> res V) n : iagree (conn_get_user_var true f n) (conn_get_user_var false f n).
Proof. unfold conn_get_user_var. apply iagree_bind; [apply query_qry_ok | intros; apply iagree_refl]. Qed.
Lemma conn_set_var_ok n v g : iagree (conn_set_var true n v g) (conn_set_var false n v g).
Proof. unfold conn_set_var. apply iagree_bind; [apply stmt_prepare_ok | intros; apply stmt_exec_close_ok]. Qed.
Lemma conn_set_user_var_ok n v : iagree (conn_set_user_var true n v) (conn_set_user_var false n v).
Proof. unfold conn_set_user_var. apply iagree_bind; [apply stmt_prepare_ok | intros; apply stmt_exec_close_ok]. Qed.

Section Auth.
  Variables sha1 sha256 : bytes -> bytes.
  Lemma change_user_loop_ok pw fuel : forall p,
    iagree (change_user_loop sha1 sha256 true pw fuel p) (change_user_loop sha1 sha256 false pw fuel p).
  Proof.
    induction fuel as [|fuel IH]; intros p; cbn [change_user_loop]; [apply iagree_refl|].
    apply iagree_bind; [apply iagree_refl|]. intros msg. at_conn.
    apply iagree_bind; [apply iagree_refl|]. intros [e|sw|ok|more]; try apply iagree_refl.
    - apply iagree_bind; [apply iagree_refl|]. intros p0.
      destruct (gen_init_auth_resp _ _ _ _ _) as [r p1].
      apply iagree_bind; [apply iagree_refl|]. intros resp.
      apply iagree_bind; [apply send_msg_ok|]. intros _. apply IH.
    - destruct p as [p0|]; [|apply iagree_refl]. destruct (auth_next _ _ _ _) as [r p1].
      apply iagree_bind; [apply iagree_refl|]. intros resp.
      apply iagree_bind; [apply send_msg_ok|]. intros _. apply IH.
  Qed.
  Lemma conn_change_user_ok u pw db attrs :
    iagree (conn_change_user sha1 sha256 true u pw db attrs) (conn_change_user sha1 sha256 false u pw db attrs).
  Proof.
    unfold conn_change_user. at_conn. apply iagree_bind; [apply send_msg_ok|]. intros _.
    at_conn. apply change_user_loop_ok.
  Qed.
  Lemma handshake_loop_ok cap fuel : forall p,
    iagree (handshake_loop sha1 sha256 true cap fuel p) (handshake_loop sha1 sha256 false cap fuel p).
  Proof.
    induction fuel as [|fuel IH]; intros p; cbn [handshake_loop]; [apply iagree_refl|].
    do 2 (apply iagree_bind; [apply iagree_refl|]; intros ?).
    match goal with |- iagree (match ?m with _ => _ end) _ => destruct m as [ok|e|sw|more] eqn:E end; try apply iagree_refl.
    destruct (auth_next _ _ _ _) as [r p1]. apply iagree_bind; [apply iagree_refl|]. intros resp.
    apply iagree_bind; [destruct resp; [apply iagree_refl | apply send_msg_ok]|]. intros _. apply IH.
  Qed.
  Lemma handshake_rel_ok opts : iagree (handshake sha1 sha256 true opts) (handshake_rel sha1 sha256 opts).
  Proof.
    unfold handshake, handshake_rel. apply iagree_bind; [apply iagree_refl|]. intros msg.
    apply iagree_bind; [apply iagree_lift, pagree_fst, read_initial_handshake_rel_ok|]. intros hs.
    do 2 (apply iagree_bind; [apply iagree_refl|]; intros ?).
    destruct (gen_init_auth_resp _ _ _ _ _) as [r p1]. apply iagree_bind; [apply iagree_refl|]. intros resp.
    apply iagree_bind; [apply iagree_refl|]. intros _. at_conn.
    apply iagree_bind; [apply send_msg_ok|]. intros _. at_conn. apply handshake_loop_ok.
  Qed.
End Auth.

(** ** The binlog stream *)
Lemma check_rotate_rel_ok b msg : agree (check_rotate b msg) (check_rotate_rel b msg).
Proof.
  unfold check_rotate, check_rotate_rel. destruct (read_event_header msg) as [r body].
  apply agree_bind; [apply agree_refl|]. intros eh. destruct (h_type eh); try apply agree_refl.
  destruct b; [|apply agree_refl]. apply agree_bind; [|intros; apply agree_refl].
  pose proof (split_last4_agree body) as H. unfold csub in *. destruct (blen body <? 4); [apply agree_arith|].
  destruct H as [[H|H] | H]; try discriminate. rewrite H. apply agree_refl.
Qed.
Lemma recv_fde_rel_ok o : iagree (recv_fde o) (recv_fde_rel o).
Proof.
  unfold recv_fde, recv_fde_rel. apply iagree_bind; [apply iagree_refl|]. intros msg.
  destruct (read_u8 msg) as [[n|e|p|] rest]; try apply iagree_refl.
  apply iagree_bind; [apply iagree_parse, from_fde_bytes_rel_ok | intros; apply iagree_refl].
Qed.
Lemma recv_stream_start_rel_ok b o : iagree (recv_stream_start b o) (recv_stream_start_rel b o).
Proof.
  unfold recv_stream_start, recv_stream_start_rel. apply iagree_bind; [apply iagree_refl|]. intros msg.
  destruct msg as [|h rest]; [apply iagree_refl|].
  destruct (b2n h =? 0xff); [apply iagree_refl|]. destruct (b2n h =? 0xfe); [apply iagree_refl|].
  destruct (b2n h =? 0); [|apply iagree_refl].
  apply iagree_bind; [apply iagree_lift, check_rotate_rel_ok|]. intros _. apply recv_fde_rel_ok.
Qed.
Lemma get_required_ok {V} (f : option bytes -> res V) n e : iagree (get_required true f n e) (get_required false f n e).
Proof. unfold get_required. apply iagree_bind; [apply conn_get_var_ok | intros; apply iagree_refl]. Qed.
Lemma request_stream_rel_ok uuid id o : iagree (request_stream true uuid id o) (request_stream_rel uuid id o).
Proof.
  unfold request_stream, request_stream_rel.
  repeat (apply iagree_bind; [first [apply get_required_ok | apply conn_set_user_var_ok | apply send_msg_ok
    | apply iagree_bind; [apply send_msg_ok | intros; apply iagree_refl]] | intros ?]).
  apply recv_stream_start_rel_ok.
Qed.
Lemma recv_and_parse_event_rel_ok crc s : iagree (recv_and_parse_event crc s) (recv_and_parse_event_rel crc s).
Proof.
  unfold recv_and_parse_event, recv_and_parse_event_rel. apply iagree_bind; [apply iagree_refl|]. intros msg.
  destruct msg as [|h msg]; [apply iagree_refl|]. destruct (_ && _)%bool; [apply iagree_refl|].
  destruct (negb _); [apply iagree_refl|].
  apply iagree_bind; [apply iagree_parse, parse_event_rel_ok | intros; apply iagree_refl].
Qed.
Lemma next_event_loop_rel_ok crc fuel s : iagree (next_event_loop crc fuel s) (next_event_loop_rel crc fuel s).
Proof.
  induction fuel as [|fuel IH]; cbn [next_event_loop next_event_loop_rel]; [apply iagree_refl|].
  apply iagree_bind; [apply recv_and_parse_event_rel_ok|]. intros [e| |]; try apply iagree_refl. exact IH.
Qed.
Lemma next_event_rel_ok crc s : iagree (next_event crc s) (next_event_rel crc s).
Proof.
  intros c. unfold next_event, next_event_rel. destruct (s_completed s); [right; reflexivity|]. apply next_event_loop_rel_ok.
Qed.

(** ** The programs *)
Section Dml.
  Variables fmt_f32 fmt_f64 : N -> bytes.
  Variable crc : bytes -> N.
  Variable o : dml_options.

  Lemma dml_table_map_rel_ok st data : iagree (dml_table_map true o st data) (dml_table_map_rel o st data).
  Proof.
    unfold dml_table_map, dml_table_map_rel. apply iagree_bind; [apply iagree_refl|]. intros d.
    destruct (find_table _ _); [apply iagree_refl|]. destruct (skips _ _); [apply iagree_refl|].
    apply iagree_bind; [apply iagree_lift, table_map_of_rel_ok|]. intros tm. destruct (_ || _)%bool; [apply iagree_refl|].
    apply iagree_bind; [apply conn_init_db_ok|]. intros _.
    apply iagree_bind; [apply conn_field_list_ok|]. intros defs. apply iagree_refl.
  Qed.
  Lemma with_table_ok st id f g : (forall tm, agree (f tm) (g tm)) -> agree (with_table st id f) (with_table st id g).
  Proof. intros H. unfold with_table. repeat first [apply H | rel_step]. Qed.
  Lemma dml_delete_rel_ok st data : agree (dml_delete fmt_f32 fmt_f64 o st data) (dml_delete_rel fmt_f32 fmt_f64 o st data).
  Proof.
    unfold dml_delete, dml_delete_rel. apply agree_bind; [apply agree_refl|]. intros d. apply with_table_ok. intros tm.
    apply agree_bind; [apply rows_of_rel_ok|]. intros rows. apply agree_bind; [apply agree_refl|]. intros q.
    apply agree_map, sql_list_rel_ok.
  Qed.
  Lemma dml_insert_rel_ok st data : agree (dml_insert fmt_f32 fmt_f64 o st data) (dml_insert_rel fmt_f32 fmt_f64 o st data).
  Proof.
    unfold dml_insert, dml_insert_rel. apply agree_bind; [apply agree_refl|]. intros d. apply with_table_ok. intros tm.
    apply agree_bind; [apply rows_of_rel_ok|]. intros rows. apply agree_bind; [apply agree_refl|]. intros q.
    apply agree_map, sql_list_rel_ok.
  Qed.
  Lemma dml_update_rel_ok st pos data :
    agree (dml_update fmt_f32 fmt_f64 o st pos data) (dml_update_rel fmt_f32 fmt_f64 o st pos data).
  Proof.
    unfold dml_update, dml_update_rel. apply agree_bind; [apply agree_refl|]. intros d. apply with_table_ok. intros tm.
    apply agree_bind; [apply update_rows_of_rel_ok|]. intros rows. destruct (negb _); [apply agree_refl|].
    apply agree_bind; [apply agree_refl|]. intros q. apply agree_map, sql_list_rel_ok.
  Qed.
  Lemma dml_event_rel_ok st e : iagree (dml_event fmt_f32 fmt_f64 true o st e) (dml_event_rel fmt_f32 fmt_f64 o st e).
  Proof.
    unfold dml_event, dml_event_rel. destruct (ev_kind e); try apply iagree_refl.
    - apply dml_table_map_rel_ok.
    - apply iagree_lift, dml_insert_rel_ok.
    - apply iagree_lift, dml_update_rel_ok.
    - apply iagree_lift, dml_delete_rel_ok.
  Qed.

  (** the result of a program, in front of what it leaves behind *)
  Definition outcome {A B C} (x : res unit * A * B * C) : res unit := fst (fst (fst x)).
  Lemma dml_loop_rel_ok s fuel : forall st c h,
    stopped_by_checks (outcome (dml_loop fmt_f32 fmt_f64 crc true o fuel s st c h))
    \/ dml_loop_rel fmt_f32 fmt_f64 crc o fuel s st c h = dml_loop fmt_f32 fmt_f64 crc true o fuel s st c h.
  Proof.
    induction fuel as [|fuel IH]; intros st c h; cbn [dml_loop dml_loop_rel]; [right; reflexivity|].
    destruct (next_event_rel_ok crc s c) as [S | ->].
    { left. destruct (next_event crc s c) as [r c']. destruct S as [S|S]; cbn in S; subst r; [left|right]; reflexivity. }
    destruct (next_event crc s c) as [[[e|]|e|p|] c']; try (right; reflexivity).
    destruct (dml_event_rel_ok st e h) as [S | ->].
    { left. destruct (dml_event _ _ _ _ _ _ _) as [r h']. destruct S as [S|S]; cbn in S; subst r; [left|right]; reflexivity. }
    destruct (dml_event _ _ _ _ _ _ _) as [[[out [st'|]]|e'|p|] h']; try (right; reflexivity).
    destruct (IH st' c' h') as [S | ->]; [left|right; reflexivity].
    destruct (dml_loop _ _ _ _ _ _ _ st' c' h') as [[[r out'] c2] h2]. exact S.
  Qed.
  Lemma print_dmls_rel_ok uuid id file nb c h :
    stopped_by_checks (outcome (print_dmls fmt_f32 fmt_f64 crc true o uuid id file nb c h))
    \/ print_dmls_rel fmt_f32 fmt_f64 crc o uuid id file nb c h = print_dmls fmt_f32 fmt_f64 crc true o uuid id file nb c h.
  Proof.
    unfold print_dmls, print_dmls_rel. destruct (request_stream_rel_ok uuid id (bo_set_non_block nb (bo_set_pos 4 (bo_set_filename file bo_new))) c) as [S | ->].
    { left. destruct (request_stream _ _ _ _ _) as [r c']. destruct S as [S|S]; cbn in S; subst r; [left|right]; reflexivity. }
    destruct (request_stream _ _ _ _ _) as [[s|e|p|] c']; try (right; reflexivity). apply dml_loop_rel_ok.
  Qed.
End Dml.

Section Tools.
  Variables sha1 sha256 : bytes -> bytes.
  Variables fmt_f32 fmt_f64 : N -> bytes.
  Variable crc : bytes -> N.
  Variable compile : bytes -> option (bytes -> bool).

  Lemma connect_rel_ok user pw s :
    stopped_by_checks (fst (connect sha1 sha256 true user pw s)) \/ connect_rel sha1 sha256 user pw s = connect sha1 sha256 true user pw s.
  Proof.
    unfold connect, connect_rel. destruct s as [s|]; [|right; reflexivity].
    destruct (handshake_rel_ok sha1 sha256 (mk_opts user pw []) (conn_new s)) as [S | ->]; [|right; reflexivity].
    left. destruct (handshake _ _ _ _ _) as [r c]. exact S.
  Qed.
  Lemma exec_list_rel_ok user pw s :
    stopped_by_checks (fst (exec_list sha1 sha256 true user pw s)) \/ exec_list_rel sha1 sha256 user pw s = exec_list sha1 sha256 true user pw s.
  Proof.
    unfold exec_list, exec_list_rel. destruct (connect_rel_ok user pw s) as [S | ->].
    { left. destruct (connect _ _ _ _ _ _) as [r c]. destruct S as [S|S]; cbn in S; subst r; [left|right]; reflexivity. }
    destruct (connect _ _ _ _ _ _) as [[[]|e|p|] [c|]]; try (right; reflexivity).
    destruct (conn_binlog_files_ok c) as [S | ->]; [|right; reflexivity].
    left. destruct (conn_binlog_files true c) as [r c']. exact S.
  Qed.
  Lemma exec_dml_rel_ok uuid id user pw file until df tf block limit s1 s2 :
    stopped_by_checks (outcome (exec_dml sha1 sha256 fmt_f32 fmt_f64 crc true compile uuid id user pw file until df tf block limit s1 s2))
    \/ exec_dml_rel sha1 sha256 fmt_f32 fmt_f64 crc compile uuid id user pw file until df tf block limit s1 s2
       = exec_dml sha1 sha256 fmt_f32 fmt_f64 crc true compile uuid id user pw file until df tf block limit s1 s2.
  Proof.
    unfold exec_dml, exec_dml_rel. destruct (connect_rel_ok user pw s1) as [S | ->].
    { left. destruct (connect _ _ _ _ _ s1) as [r c]. destruct S as [S|S]; cbn in S; subst r; [left|right]; reflexivity. }
    destruct (connect _ _ _ _ _ s1) as [[[]|e|p|] [c|]]; try (right; reflexivity).
    destruct (connect_rel_ok user pw s2) as [S | ->].
    { left. destruct (connect _ _ _ _ _ s2) as [r h]. destruct S as [S|S]; cbn in S; subst r; [left|right]; reflexivity. }
    destruct (connect _ _ _ _ _ s2) as [[[]|e|p|] [h|]]; try (right; reflexivity).
    destruct (compile_opt compile df) as [df'|e|p|]; try (right; reflexivity).
    destruct (compile_opt compile tf) as [tf'|e|p|]; try (right; reflexivity).
    destruct (print_dmls_rel_ok fmt_f32 fmt_f64 crc (mk_do until df' tf' limit) uuid id file (negb block) c h) as [S | ->];
      [|right; reflexivity].
    left. destruct (print_dmls _ _ _ _ _ _ _ _ _ _ _) as [[[r out] c'] h']. exact S.
  Qed.
  Lemma watch_loop_rel_ok s fuel : forall c,
    stopped_by_checks (fst (fst (watch_loop crc fuel s c))) \/ watch_loop_rel crc fuel s c = watch_loop crc fuel s c.
  Proof.
    induction fuel as [|fuel IH]; intros c; cbn [watch_loop watch_loop_rel]; [right; reflexivity|].
    destruct (next_event_rel_ok crc s c) as [S | ->].
    { left. destruct (next_event crc s c) as [r c']. destruct S as [S|S]; cbn in S; subst r; [left|right]; reflexivity. }
    destruct (next_event crc s c) as [[[e|]|e|p|] c']; try (right; reflexivity).
    destruct (IH c') as [S | ->]; [left|right; reflexivity].
    destruct (watch_loop crc fuel s c') as [[r es] c2]. exact S.
  Qed.
  Lemma watch_rel_ok uuid id conf s :
    stopped_by_checks (outcome (watch sha1 sha256 crc true uuid id conf s))
    \/ watch_rel sha1 sha256 crc uuid id conf s = watch sha1 sha256 crc true uuid id conf s.
  Proof.
    unfold watch, watch_rel. destruct conf as [user pw|]; [|right; reflexivity].
    destruct (connect_rel_ok user pw s) as [S | ->].
    { left. destruct (connect _ _ _ _ _ s) as [r c]. destruct S as [S|S]; cbn in S; subst r; [left|right]; reflexivity. }
    destruct (connect _ _ _ _ _ s) as [[[]|e|p|] [c|]]; try (right; reflexivity).
    destruct (conn_binlog_files_ok c) as [S | ->].
    { left. destruct (conn_binlog_files true c) as [r c']. destruct S as [S|S]; cbn in S; subst r; [left|right]; reflexivity. }
    destruct (conn_binlog_files true c) as [[files|e|p|] c']; try (right; reflexivity).
    destruct (request_stream_rel_ok uuid id bo_new c') as [S | ->].
    { left. destruct (request_stream _ _ _ _ c') as [r c2]. destruct S as [S|S]; cbn in S; subst r; [left|right]; reflexivity. }
    destruct (request_stream _ _ _ _ c') as [[st|e|p|] c2]; try (right; reflexivity).
    destruct (watch_loop_rel_ok st (S (sched_len (c_rd c2))) c2) as [S | ->]; [|right; reflexivity].
    left. destruct (watch_loop _ _ _ _) as [[r es] c3]. exact S.
  Qed.
End Tools.
