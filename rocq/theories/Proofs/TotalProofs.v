(** * Which decoders panic, and when *)
From Coq Require Import Lia.
From Verif Require Import Model.Base Model.BytesParser Model.LenEnc Model.Utf8 Model.Flags Model.Packet Model.Cmd Model.Time
  Model.Decimal Model.Bitmap Model.Col Model.Row Model.Rows Model.Event Model.EventBody Model.Stmt Model.Session
  Spec.Nums Spec.Wire Spec.BitmapSpec Spec.DecimalSpec Spec.Decoders Spec.Catalogue
  Proofs.BaseLemmas Proofs.BytesParserProofs Proofs.CodecProofs Proofs.LenEncProofs Proofs.PacketProofs Proofs.BitmapProofs
  Proofs.LocalProofs.
Open Scope N_scope.

(** ** Panic-free decoders *)
Lemma no_panic_remaining : no_panic premaining. Proof. intros bs. left. eexists. reflexivity. Qed.
Lemma no_panic_repeat {A} n (p : parser A) : no_panic p -> no_panic (prepeat n p).
Proof. intros H. induction n; cbn [prepeat]; pt. Qed.
#[export] Hint Resolve no_panic_remaining no_panic_repeat : parse.
Lemma np_in_pattern {A} (x : res A) : returns x -> no_panic (plift x). Proof. intros H bs. exact H. Qed.
Lemma les_string_ok s : returns (les_into_string s).
Proof. unfold les_into_string. destruct s; [left; eexists; reflexivity|left; eexists; reflexivity|apply from_utf8_ok]. Qed.
Lemma np_les_string : no_panic read_les_string.
Proof. unfold read_les_string. apply no_panic_bind; [pt|]. intros s. apply np_in_pattern, les_string_ok. Qed.
Lemma column_type_ok n : returns (column_type_of n).
Proof. unfold column_type_of, returns. repeat match goal with |- context [match ?x with _ => _ end] => destruct x end; eauto. Qed.
Lemma event_type_ok n : returns (event_type_of n).
Proof. unfold event_type_of, returns. repeat match goal with |- context [match ?x with _ => _ end] => destruct x end; eauto. Qed.
Lemma np_event_type_of n : no_panic (plift (event_type_of n)). Proof. apply np_in_pattern, event_type_ok. Qed.
Lemma np_column_type_of n : no_panic (plift (column_type_of n)). Proof. apply np_in_pattern, column_type_ok. Qed.
Lemma np_from_utf8 n : no_panic (plift (from_utf8 n)). Proof. apply np_in_pattern, from_utf8_ok. Qed.
#[export] Hint Resolve np_les_string np_event_type_of np_column_type_of np_from_utf8 : parse.
Lemma np_column_def fl : no_panic (read_column_def fl). Proof. unfold read_column_def. pt. Qed.
Lemma np_prepare_ok : no_panic read_stmt_prepare_ok. Proof. unfold read_stmt_prepare_ok. pt. Qed.
Ltac npp := intros [|? ?]; [right; eexists; reflexivity|apply no_panic_at; pt].
#[export] Hint Resolve np_column_def np_prepare_ok : parse.
Lemma np_field_list cap sql : no_panic (read_field_list_response cap sql). Proof. unfold read_field_list_response. npp. Qed.
Lemma np_debug cap : no_panic (read_debug_response cap). Proof. unfold read_debug_response. npp. Qed.
Lemma np_set_option cap : no_panic (read_set_option_response cap). Proof. unfold read_set_option_response. npp. Qed.
Lemma np_change_user cap : no_panic (read_change_user_response cap). Proof. unfold read_change_user_response. npp. Qed.
Lemma np_command : no_panic read_command. Proof. unfold read_command. pt. Qed.
#[export] Hint Resolve np_command : parse.
Lemma np_dump : no_panic read_binlog_dump. Proof. unfold read_binlog_dump. pt. Qed.
Lemma np_event_type : no_panic read_event_type. Proof. unfold read_event_type. pt. Qed.
Lemma np_event_length : no_panic read_event_length. Proof. unfold read_event_length. pt. Qed.
Lemma np_header_v1 : no_panic read_event_header_v1. Proof. unfold read_event_header_v1. pt. Qed.
#[export] Hint Resolve np_header_v1 : parse.
Lemma np_header : no_panic read_event_header. Proof. unfold read_event_header. pt. Qed.
#[export] Hint Resolve np_header : parse.
Lemma until_ok b i s : returns (fst (read_until b i s)).
Proof. apply (good_no_panic _ (good_read_until b i)). Qed.
Lemma np_until b i s : no_panic (plift (fst (read_until b i s))). Proof. apply np_in_pattern, until_ok. Qed.
Lemma np_until_nul s : no_panic (plift (until_nul s)). Proof. apply np_until. Qed.
#[export] Hint Resolve np_until np_until_nul : parse.
Lemma np_start : no_panic read_start_data. Proof. unfold read_start_data. pt. Qed.
Lemma np_version : no_panic read_binlog_version. Proof. unfold read_binlog_version. pt. Qed.
Lemma np_logical_ts : no_panic read_logical_ts. Proof. unfold read_logical_ts. pt. Qed.
#[export] Hint Resolve np_logical_ts : parse.
Lemma np_gtid : no_panic read_gtid_log. Proof. unfold read_gtid_log. pt. Qed.
#[export] Hint Resolve np_gtid : parse.
Lemma np_anonymous : no_panic read_anonymous_gtid_log. Proof. unfold read_anonymous_gtid_log. pt. Qed.
Lemma np_incident : no_panic read_incident. Proof. unfold read_incident. pt. Qed.
Lemma np_intvar : no_panic read_intvar. Proof. unfold read_intvar. pt. Qed.
Lemma np_rand : no_panic read_rand. Proof. unfold read_rand. pt. Qed.
Lemma np_rotate : no_panic read_rotate. Proof. unfold read_rotate. pt. Qed.
Lemma np_user_var : no_panic read_user_var. Proof. unfold read_user_var. pt. Qed.
Lemma np_user_var_value : no_panic read_user_var_value. Proof. unfold read_user_var_value. pt. Qed.
Lemma np_create_file : no_panic read_create_file. Proof. unfold read_create_file. pt. Qed.
Lemma np_append_block : no_panic read_append_block. Proof. unfold read_append_block. pt. Qed.
Lemma np_begin_load_query : no_panic read_begin_load_query. Proof. unfold read_begin_load_query. pt. Qed.
Lemma np_execute_load_query : no_panic read_execute_load_query. Proof. unfold read_execute_load_query. pt. Qed.
Lemma np_query : no_panic read_query_data. Proof. unfold read_query_data. pt. Qed.
Lemma np_status_var : no_panic read_status_var. Proof. unfold read_status_var. pt. Qed.
#[export] Hint Resolve np_status_var : parse.

(** loops to the end of the input end when every step uses something *)
Definition consumes {A} (p : parser A) : Prop :=
  forall bs a rest, p bs = (Ok a, rest) -> (length rest < length bs)%nat.
Lemma pwhile_returns {A} (p : parser A) : no_panic p -> consumes p ->
  forall n bs, (length bs <= n)%nat -> returns (fst (pwhile n p bs)).
Proof.
  intros Hp Hc. induction n as [|n IH]; intros [|b bs] L; cbn [pwhile].
  - left. eexists. reflexivity.
  - cbn in L. lia.
  - left. eexists. reflexivity.
  - destruct (p (b :: bs)) as [r rest] eqn:E. destruct (Hp (b :: bs)) as [[a Ha]|[e He]].
    + rewrite E in Ha. cbn [fst] in Ha. subst r. pose proof (Hc _ _ _ E) as C. cbn [length] in *.
      unfold pbind. rewrite E. destruct (IH rest) as [[l Hl]|[e He]]; [lia|..];
      destruct (pwhile n p rest) as [r2 rest2]; cbn [fst] in *; subst r2; [left|right]; eexists; reflexivity.
    + rewrite E in He. cbn [fst] in He. subst r. unfold pbind. rewrite E. right. eexists. reflexivity.
Qed.
Lemma while_returns {A} (p : parser A) : no_panic p -> consumes p -> no_panic (while_remaining p).
Proof. intros Hp Hc bs. apply pwhile_returns; auto. Qed.
Lemma consumes_bind {A B} (p : parser A) (f : A -> parser B) : consumes p -> (forall a, suffix_p (f a)) -> consumes (pbind p f).
Proof.
  intros Hp Hf bs b rest H. apply pbind_inv in H. destruct H as (a & mid & H1 & H2). apply Hp in H1.
  destruct (Hf a mid) as [u E]. rewrite H2 in E. cbn [snd] in E. subst mid. rewrite app_length in H1. lia.
Qed.
Lemma consumes_u8 : consumes read_u8.
Proof. intros bs a rest H. apply uses_u8 in H. lia. Qed.
Lemma np_status_vars : no_panic read_status_vars.
Proof.
  unfold read_status_vars. apply while_returns; [pt|]. unfold read_status_var.
  apply consumes_bind; [apply consumes_u8|]. intros a. sx.
Qed.
Lemma np_table_map : no_panic read_table_map_data. Proof. unfold read_table_map_data. pt. Qed.
Lemma np_rows_v1 : no_panic read_write_rows_v1. Proof. unfold read_write_rows_v1. pt. Qed.
Lemma np_rows_v2 : no_panic read_write_rows_v2. Proof. unfold read_write_rows_v2. pt. Qed.
#[export] Hint Resolve np_field_list np_debug np_set_option np_change_user np_dump np_event_type np_event_length np_start np_version
  np_anonymous np_incident np_intvar np_rand np_rotate np_user_var np_user_var_value np_create_file np_append_block
  np_begin_load_query np_execute_load_query np_query np_status_vars np_table_map np_rows_v1 np_rows_v2 : parse.
Lemma panic_free_ok A (p : parser A) : panic_free p -> no_panic p.
Proof.
  intros H. destruct H; auto with parse nocore.
  - unfold read_update_rows_v1. pt.
  - unfold read_delete_rows_v1. pt.
  - unfold read_update_rows_v2. pt.
  - unfold read_delete_rows_v2. pt.
Qed.

(** ** Values *)
Lemma cut k (bs : bytes) : (length bs < k)%nat \/ exists a rest, bs = a ++ rest /\ length a = k.
Proof.
  destruct (Nat.ltb_spec (length bs) k); [left; assumption|right]. exists (firstn k bs), (skipn k bs).
  rewrite firstn_skipn, firstn_length. split; [reflexivity|lia].
Qed.
Lemma exact_free {A} (r : res A) (P : panic -> Prop) : (forall w, ~ P w) -> returns r -> panics_exactly r P.
Proof.
  intros H R. split; [|destruct R as [[a ->]|[e ->]]; discriminate]. intros w. split; [|intros Hw; destruct (H w Hw)].
  destruct R as [[a ->]|[e ->]]; discriminate.
Qed.
Lemma exact_of {A} (r : res A) (P : panic -> Prop) :
  (forall w, P w -> r = Panic w) -> returns r \/ (exists w, P w) -> panics_exactly r P.
Proof.
  intros H [R|[w Hw]].
  - apply exact_free; [|exact R]. intros w Hw. rewrite (H w Hw) in R. destruct R as [[a E]|[e E]]; discriminate.
  - pose proof (H w Hw) as E. split; [|rewrite E; discriminate]. intros w'. split; [|apply H].
    rewrite E. intros E2. injection E2 as <-. exact Hw.
Qed.
Lemma np_f64 bs : ~ (5 <= length bs <= 7)%nat -> returns (fst (read_le_f64 bs)).
Proof.
  intros H. destruct (Nat.ltb_spec (length bs) 8) as [L|L].
  - rewrite short_f64 by assumption. destruct (Nat.leb_spec (length bs) 4); [right; eexists; reflexivity|lia].
  - unfold read_le_f64. destruct (Nat.ltb_spec (length bs) 8); [lia|].
    apply (no_panic_at (pmap get_le (take 8))). pt.
Qed.
Lemma panic_f64 bs : (5 <= length bs <= 7)%nat -> fst (read_le_f64 bs) = Panic PArith.
Proof. intros H. rewrite short_f64 by lia. destruct (Nat.leb_spec (length bs) 4); [lia|reflexivity]. Qed.
Lemma returns_map {A B} (f : A -> B) (p : parser A) bs : returns (fst (p bs)) -> returns (fst (pmap f p bs)).
Proof.
  unfold pmap, pbind. destruct (p bs) as [r rest]. cbn [fst].
  intros [[a ->]|[e ->]]; [left|right]; eexists; reflexivity.
Qed.
Lemma panic_map {A B} (f : A -> B) (p : parser A) bs w : fst (p bs) = Panic w -> fst (pmap f p bs) = Panic w.
Proof. unfold pmap, pbind. destruct (p bs) as [r rest]. cbn [fst]. intros ->. reflexivity. Qed.
Lemma np_les_value w : no_panic (read_les_value w). Proof. unfold read_les_value. pt. Qed.
Lemma np_binary_date : no_panic read_binary_date. Proof. unfold read_binary_date. pt. Qed.
Lemma np_binary_time : no_panic read_binary_time. Proof. unfold read_binary_time. pt. Qed.
Lemma np_binary_datetime : no_panic read_binary_datetime. Proof. unfold read_binary_datetime. pt. Qed.
#[export] Hint Resolve np_les_value np_binary_date np_binary_time np_binary_datetime : parse.
Lemma np_binary_value ct : ct <> TDouble -> no_panic (read_binary_value ct).
Proof. intros H. destruct ct; cbn [read_binary_value]; try contradiction; pt. Qed.
Lemma binary_value_exact ct bs :
  panics_exactly (fst (read_binary_value ct bs)) (fun w => w = PArith /\ binary_value_panics ct bs).
Proof.
  apply exact_of.
  - intros w [-> [-> H]]. cbn [read_binary_value]. apply panic_map, panic_f64. exact H.
  - assert (ct = TDouble \/ ct <> TDouble) as [->|E] by (destruct ct; auto; right; discriminate).
    + assert (5 <= length bs <= 7 \/ ~ 5 <= length bs <= 7)%nat as [L|L] by lia.
      * right. exists PArith. split; [reflexivity|split; [reflexivity|exact L]].
      * left. cbn [read_binary_value]. apply returns_map, np_f64. exact L.
    + left. apply np_binary_value. exact E.
Qed.

(** panics of a kind only *)
Definition only {A} (S : bytes -> panic -> Prop) (p : parser A) : Prop :=
  forall bs, match fst (p bs) with Ok _ | Err _ => True | Panic w => S bs w | Loop => False end.
Definition upward (S : bytes -> panic -> Prop) : Prop := forall u t w, S t w -> S (u ++ t) w.
Lemma only_free {A} S (p : parser A) : no_panic p -> only S p.
Proof. intros H bs. destruct (H bs) as [[a ->]|[e ->]]; exact I. Qed.
Lemma only_bind {A B} S (p : parser A) (f : A -> parser B) : upward S -> suffix_p p ->
  only S p -> (forall a, only S (f a)) -> only S (pbind p f).
Proof.
  intros U Hs Hp Hf bs. specialize (Hp bs). destruct (Hs bs) as [u E]. unfold pbind.
  destruct (p bs) as [[a|e|w|] rest]; cbn [fst snd] in *; auto.
  specialize (Hf a rest). destruct (fst (f a rest)); auto. rewrite E. apply U. exact Hf.
Qed.
(** a binary row *)
Definition row_cut (cts : list column_type) (bs : bytes) (w : panic) : Prop :=
  w = PArith /\ exists ct tail, In ct cts /\ final_part tail bs /\ binary_value_panics ct tail.
Lemma row_cut_up cts : upward (row_cut cts).
Proof. intros u t w [-> (ct & tail & H1 & [fr ->] & H2)]. split; [reflexivity|]. exists ct, tail. split; [exact H1|]. split; [exists (u ++ fr); apply app_assoc|exact H2]. Qed.
Lemma only_weaken {A} (S T : bytes -> panic -> Prop) (p : parser A) : (forall bs w, S bs w -> T bs w) -> only S p -> only T p.
Proof. intros H P bs. specialize (P bs). destruct (fst (p bs)); auto. Qed.
Lemma only_binary_value cts ct : In ct cts -> only (row_cut cts) (read_binary_value ct).
Proof.
  intros H bs. destruct (binary_value_exact ct bs) as [P R].
  assert (binary_value_panics ct bs \/ ~ binary_value_panics ct bs) as [D|D].
  { unfold binary_value_panics. destruct (Nat.leb_spec 5 (length bs)), (Nat.leb_spec (length bs) 7); destruct ct;
      try (right; intros [X Y]; (discriminate X || lia)). left. split; [reflexivity|lia]. }
  - rewrite (proj2 (P PArith)) by auto. split; [reflexivity|]. exists ct, bs. split; [exact H|]. split; [exists []; reflexivity|exact D].
  - destruct (fst (read_binary_value ct bs)) as [|e|w|]; try exact I; [|contradiction]. destruct (proj1 (P w) eq_refl) as [_ X]. contradiction.
Qed.
Lemma only_binary_cols all cts bits : forall idx, incl cts all -> (idx + length cts <= 8 * length bits)%nat ->
  only (row_cut all) (read_binary_cols cts bits idx).
Proof.
  induction cts as [|ct cts IH]; intros idx Hi L; cbn [read_binary_cols].
  - apply only_free. pt.
  - cbn [length] in L. rewrite bm_next_some by lia.
    apply only_bind; [apply row_cut_up|pt|apply only_free; apply np_in_pattern; left; eexists; reflexivity|].
    intros [null|]; [|apply only_free; pt].
    apply only_bind; [apply row_cut_up|sx| |].
    + destruct null; [apply only_free; pt|]. apply only_binary_value. apply Hi. left. reflexivity.
    + intros v. apply only_bind; [apply row_cut_up|sx| |intros; apply only_free; pt].
      apply IH; [|lia]. intros x Hx. apply Hi. right. exact Hx.
Qed.
Lemma binary_row_only cts : only (row_cut cts) (read_binary_row cts).
Proof.
  unfold read_binary_row. apply only_bind; [apply row_cut_up|sx|apply only_free; pt|intros _]. cbv zeta.
  set (k := N.shiftr (N.of_nat (length cts) + 7 + 2) 3). intros bs. unfold pbind.
  destruct (read_len k bs) as [r rest] eqn:E. destruct (good_no_panic _ (good_read_len k) bs) as [[a Ha]|[e He]].
  - rewrite E in Ha. cbn [fst] in Ha. subst r. apply read_len_inv in E. destruct E as [-> El].
    assert (only (row_cut cts) (read_binary_cols cts a 2)) as O.
    { apply only_binary_cols; [apply incl_refl|]. unfold k in El. rewrite N.shiftr_div_pow2 in El. change (2 ^ 3) with 8 in El.
      unfold blen in El. lia. }
    specialize (O rest). destruct (fst (read_binary_cols cts a 2 rest)); auto. apply row_cut_up. exact O.
  - rewrite E in He. cbn [fst] in He. subst r. exact I.
Qed.
(** a text row *)
Lemma text_row_exact n bs : panics_exactly (fst (read_text_row n bs)) (fun w => w = PAlloc /\ 2 ^ 58 <= n).
Proof.
  unfold read_text_row, with_capacity. apply exact_of.
  - intros w [-> H]. destruct (N.leb_spec (2 ^ 63) (32 * n)); [reflexivity|].
    change (2 ^ 58) with 288230376151711744 in H. change (2 ^ 63) with 9223372036854775808 in *. lia.
  - destruct (N.leb_spec (2 ^ 63) (32 * n)) as [L|L].
    + right. exists PAlloc. split; [reflexivity|]. change (2 ^ 58) with 288230376151711744.
      change (2 ^ 63) with 9223372036854775808 in L. lia.
    + left. apply no_panic_at. apply no_panic_bind; [apply np_in_pattern; left; eexists; reflexivity|]. intros _. apply no_panic_repeat. unfold read_text_value. pt.
Qed.
