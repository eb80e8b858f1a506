(** * Decoders leave a suffix of their input, and the self-delimiting ones depend on what they use only *)
From Coq Require Import Lia.
From Verif Require Import Model.Base Model.BytesParser Model.LenEnc Model.Utf8 Model.Flags Model.Packet Model.Cmd Model.Time
  Model.Decimal Model.Bitmap Model.Col Model.Row Model.Rows Model.Event Model.EventBody Model.Stmt Model.Session
  Spec.Decoders Spec.Catalogue
  Proofs.BaseLemmas Proofs.BytesParserProofs Proofs.CodecProofs Proofs.LenEncProofs Proofs.PacketProofs Proofs.EventProofs.
Open Scope N_scope.

Definition tidy {A} (p : parser A) : Prop := suffix_p p /\ self_contained p.
Lemma tidy_suffix {A} (p : parser A) : tidy p -> suffix_p p. Proof. intros H; apply H. Qed.
Lemma tidy_self {A} (p : parser A) : tidy p -> self_contained p. Proof. intros H; apply H. Qed.

Lemma self_ret {A} (a : A) : self_contained (pret a).
Proof.
  intros u r e x H. injection H as H1 H2. apply (f_equal (@length byte)) in H2. rewrite app_length in H2.
  destruct u; [rewrite H1; reflexivity|cbn in H2; lia].
Qed.
Lemma self_fail {A} e : self_contained (pfail (A := A) e). Proof. intros u r x a H. discriminate. Qed.
Lemma self_panic {A} e : self_contained (ppanic (A := A) e). Proof. intros u r x a H. discriminate. Qed.
Lemma self_lift {A} (x : res A) : self_contained (plift x).
Proof.
  destruct x as [a|e|w|]; [exact (self_ret a)|..]; intros u r e0 x H; discriminate.
Qed.
Lemma tidy_ret {A} (a : A) : tidy (pret a). Proof. split; [apply suffix_ret|apply self_ret]. Qed.
Lemma tidy_fail {A} e : tidy (pfail (A := A) e). Proof. split; [apply suffix_fail|apply self_fail]. Qed.
Lemma tidy_panic {A} e : tidy (ppanic (A := A) e). Proof. split; [apply suffix_panic|apply self_panic]. Qed.
Lemma tidy_lift {A} (x : res A) : tidy (plift x). Proof. split; [apply suffix_lift|apply self_lift]. Qed.

Lemma app_split3 {A} (u r u1 mid u2 : list A) : u ++ r = u1 ++ mid -> mid = u2 ++ r -> u = u1 ++ u2.
Proof. intros H1 ->. rewrite app_assoc in H1. apply app_inv_tail in H1. exact H1. Qed.
Lemma self_bind {A B} (p : parser A) (f : A -> parser B) :
  tidy p -> (forall a, tidy (f a)) -> self_contained (pbind p f).
Proof.
  intros [Sp Lp] Hf u r ext b H. apply pbind_inv in H. destruct H as (a & mid & H1 & H2).
  destruct (Sp (u ++ r)) as [u1 E1]. rewrite H1 in E1. cbn [snd] in E1.
  destruct (Hf a) as [Sf Lf]. destruct (Sf mid) as [u2 E2]. rewrite H2 in E2. cbn [snd] in E2.
  rewrite (app_split3 _ _ _ _ _ E1 E2), <- app_assoc. subst mid.
  rewrite E1 in H1. apply (Lp _ _ (u2 ++ ext)) in H1.
  eapply eq_trans; [eapply pbind_ok; exact H1|]. apply (Lf _ r). exact H2.
Qed.
Lemma tidy_bind {A B} (p : parser A) (f : A -> parser B) :
  tidy p -> (forall a, tidy (f a)) -> tidy (pbind p f).
Proof.
  intros Hp Hf. split; [|apply self_bind; assumption].
  apply suffix_bind; [apply Hp|intros a; apply Hf].
Qed.
Lemma tidy_map {A B} (f : A -> B) p : tidy p -> tidy (pmap f p).
Proof. intros. apply tidy_bind; auto. intros; apply tidy_ret. Qed.
Lemma tidy_repeat {A} n (p : parser A) : tidy p -> tidy (prepeat n p).
Proof.
  intros Hp. induction n; cbn [prepeat]; [apply tidy_ret|].
  apply tidy_bind; [assumption|]. intros. apply tidy_bind; [assumption|]. intros. apply tidy_ret.
Qed.

Create HintDb tidy.
#[export] Hint Resolve tidy_ret tidy_fail tidy_panic tidy_lift tidy_map tidy_repeat : tidy.
Ltac td := repeat (cbv beta zeta; first
  [ solve [auto with tidy nocore]
  | match goal with
    | |- tidy (pbind _ _) => apply tidy_bind; [|intros ?]
    | |- tidy (pmap _ _) => apply tidy_map
    | |- tidy (prepeat _ _) => apply tidy_repeat
    | |- tidy (if ?c then _ else _) => destruct c
    | |- tidy (match ?x with _ => _ end) => destruct x
    end ]).

(** ** the primitive readers *)
Lemma tidy_u8 : tidy read_u8.
Proof.
  split; [apply good_suffix, good_read_u8|]. intros u r e a H. destruct u as [|b u]; cbn [app] in *.
  - destruct r as [|b r]; [discriminate|]. injection H as H1 H2. exfalso. apply (f_equal (@length byte)) in H2. cbn in H2. lia.
  - cbn [read_u8] in *. injection H as H1 H2. assert (u = []) as -> by (apply (app_inv_tail r); exact H2). rewrite H1. reflexivity.
Qed.
Lemma tidy_byte : tidy read_byte.
Proof.
  split; [apply good_suffix, good_read_byte|]. intros u r e a H. destruct u as [|b u]; cbn [app] in *.
  - destruct r as [|b r]; [discriminate|]. injection H as H1 H2. exfalso. apply (f_equal (@length byte)) in H2. cbn in H2. lia.
  - cbn [read_byte] in *. injection H as H1 H2. assert (u = []) as -> by (apply (app_inv_tail r); exact H2). rewrite H1. reflexivity.
Qed.
(** a decoder that takes a number of bytes *)
Lemma firstn_skip_tail {A} k (u r : list A) : skipn k (u ++ r) = r -> (k <= length (u ++ r))%nat -> length u = k /\ firstn k (u ++ r) = u.
Proof.
  intros H L. assert (length u = k).
  { apply (f_equal (@length A)) in H. rewrite skipn_length in H. rewrite app_length in *. lia. }
  split; [assumption|]. rewrite firstn_app, <- H0, firstn_all, Nat.sub_diag. apply app_nil_r.
Qed.
Lemma tidy_take k : tidy (take k).
Proof.
  split; [apply good_suffix, good_take|]. intros u r e a H. unfold take in *.
  destruct (Nat.ltb_spec (length (u ++ r)) k); [discriminate|]. injection H as H1 H2.
  destruct (firstn_skip_tail k u r H2) as [L F]; [lia|].
  destruct (Nat.ltb_spec (length (u ++ e)) k) as [B|B]; [rewrite app_length in B; lia|].
  rewrite <- H1, F. rewrite <- L at 1. rewrite firstn_app, firstn_all, Nat.sub_diag, app_nil_r.
  rewrite <- L, skipn_app, skipn_all, Nat.sub_diag. reflexivity.
Qed.
Lemma tidy_len n : tidy (read_len n).
Proof.
  split; [apply good_suffix, good_read_len|]. intros u r e a H. unfold read_len, blen in *.
  destruct (N.ltb_spec (N.of_nat (length (u ++ r))) n); [discriminate|]. injection H as H1 H2.
  destruct (firstn_skip_tail (N.to_nat n) u r H2) as [L F]; [lia|].
  destruct (N.ltb_spec (N.of_nat (length (u ++ e))) n) as [B|B]; [rewrite app_length in B; lia|].
  rewrite <- H1, F. rewrite <- L at 1. rewrite firstn_app, firstn_all, Nat.sub_diag, app_nil_r.
  rewrite <- L, skipn_app, skipn_all, Nat.sub_diag. reflexivity.
Qed.
Lemma position_bound b bs k : position b bs = Some k -> (k < length bs)%nat.
Proof.
  revert k. induction bs as [|x bs IH]; intros k; cbn [position length]; [discriminate|].
  destruct (Byte.eqb x b); [intros H; inversion H; lia|].
  destruct (position b bs); [|discriminate]. cbn. intros H. inversion H. specialize (IH _ eq_refl). lia.
Qed.
Lemma position_app b u r e k : position b (u ++ r) = Some k -> (k < length u)%nat -> position b (u ++ e) = Some k.
Proof.
  revert k. induction u as [|x u IH]; intros k H L; [cbn in L; lia|]. cbn [app position] in *.
  destruct (Byte.eqb x b); [assumption|].
  destruct (position b (u ++ r)) as [j|] eqn:E; [|discriminate]. cbn in H. inversion H; subst.
  cbn [length] in L. rewrite (IH j eq_refl) by lia. reflexivity.
Qed.
Lemma skip_one {A} k (l : list A) : skipn 1 (skipn k l) = skipn (S k) l.
Proof. revert l. induction k as [|k IH]; intros [|x l]; try reflexivity. cbn [skipn] in *. rewrite <- IH. reflexivity. Qed.
Lemma tidy_until b i : tidy (read_until b i).
Proof.
  split; [apply good_suffix, good_read_until|]. intros u r e a H. unfold read_until in *.
  destruct (position b (u ++ r)) as [k|] eqn:E; [|discriminate].
  pose proof (position_bound _ _ _ E) as B.
  assert (skipn (S k) (u ++ r) = r) as S1.
  { destruct i; [injection H as H1 H2; exact H2|]. injection H as H1 H2.
    rewrite Nat.sub_0_r in H2.
    rewrite <- skip_one. exact H2. }
  destruct (firstn_skip_tail (S k) u r S1) as [L F]; [lia|].
  rewrite (position_app _ _ _ _ _ E) by lia.
  destruct i.
  - injection H as H1 H2. rewrite <- H1. change (match u ++ r with [] => [] | a0 :: l => a0 :: firstn k l end) with (firstn (S k) (u ++ r)). rewrite F. rewrite <- L at 1. rewrite firstn_app, firstn_all, Nat.sub_diag, app_nil_r.
    rewrite <- L, skipn_app, skipn_all, Nat.sub_diag. reflexivity.
  - injection H as H1 H2. rewrite Nat.sub_0_r in H1. replace (S k - 1)%nat with k by lia. f_equal.
    + f_equal. rewrite <- H1, !firstn_app. replace (k - length u)%nat with 0%nat by lia. reflexivity.
    + change (skipn 1 (skipn k (u ++ e)) = e). rewrite skip_one. rewrite <- L, skipn_app, skipn_all, Nat.sub_diag. reflexivity.
Qed.
#[export] Hint Resolve tidy_u8 tidy_byte tidy_take tidy_len tidy_until : tidy.
Lemma tidy_be_u40 : tidy read_be_u40.
Proof.
  assert (tidy (n4 <- read_be_u32 ;; n1 <- read_u8 ;; pret (N.shiftl n4 8 + n1))) as T by (unfold read_be_u32; td).
  split; [apply good_suffix, good_be_u40|]. intros u r e a H. unfold read_be_u40 in *.
  destruct (Nat.ltb_spec (length (u ++ r)) 5); [discriminate|].
  assert (length u = 5%nat) as L.
  { pose proof H as H'. apply pbind_inv in H'. destruct H' as (n4 & mid & A1 & A2).
    unfold read_be_u32 in A1. apply pmap_inv in A1. destruct A1 as (x & A1 & _). unfold take in A1.
    destruct (Nat.ltb_spec (length (u ++ r)) 4); [discriminate|].
    assert (mid = skipn 4 (u ++ r)) by congruence. subst mid. clear A1.
    apply pbind_inv in A2. destruct A2 as (n1 & mid & A1 & A2). inversion A2; subst.
    remember (skipn 4 (u ++ r)) as s eqn:E. destruct s as [|b t]; [discriminate A1|]. injection A1 as A3 A4. subst t. symmetry in E.
    apply (f_equal (@length byte)) in E. rewrite skipn_length, app_length in E. cbn in E. lia. }
  destruct (Nat.ltb_spec (length (u ++ e)) 5) as [B|B]; [rewrite app_length in B; lia|].
  exact (proj2 T _ _ _ _ H).
Qed.
Lemma tidy_le_f64 : tidy read_le_f64.
Proof.
  assert (tidy (pmap get_le (take 8))) as T by td. unfold read_le_f64. split.
  - intros bs. destruct (length bs <? 8)%nat; [exists []; reflexivity|apply T].
  - intros u r e a H. destruct (Nat.ltb_spec (length (u ++ r)) 8).
    + injection H as H1 H2. unfold csub in H1. destruct (4 <? blen (u ++ r)); discriminate.
    + assert (length u = 8%nat) as L.
      { apply pmap_inv in H. destruct H as (x & H & _). unfold take in H.
        destruct (Nat.ltb_spec (length (u ++ r)) 8); [discriminate|]. assert (skipn 8 (u ++ r) = r) as H2 by congruence.
        apply firstn_skip_tail in H2; [apply H2|lia]. }
      destruct (Nat.ltb_spec (length (u ++ e)) 8) as [B|B]; [rewrite app_length in B; lia|].
      exact (proj2 T _ _ _ _ H).
Qed.
Lemma tidy_i8 : tidy read_i8. Proof. unfold read_i8. td. Qed.
Lemma tidy_le_u16 : tidy read_le_u16. Proof. unfold read_le_u16. td. Qed.
Lemma tidy_be_u16 : tidy read_be_u16. Proof. unfold read_be_u16. td. Qed.
Lemma tidy_le_u24 : tidy read_le_u24. Proof. unfold read_le_u24. td. Qed.
Lemma tidy_be_u24 : tidy read_be_u24. Proof. unfold read_be_u24. td. Qed.
Lemma tidy_le_u32 : tidy read_le_u32. Proof. unfold read_le_u32. td. Qed.
Lemma tidy_be_u32 : tidy read_be_u32. Proof. unfold read_be_u32. td. Qed.
Lemma tidy_le_u48 : tidy read_le_u48. Proof. unfold read_le_u48. td. Qed.
Lemma tidy_le_u64 : tidy read_le_u64. Proof. unfold read_le_u64. td. Qed.
Lemma tidy_le_u128 : tidy read_le_u128. Proof. unfold read_le_u128. td. Qed.
Lemma tidy_le_f32 : tidy read_le_f32. Proof. unfold read_le_f32. td. Qed.
#[export] Hint Resolve tidy_be_u40 tidy_le_f64 tidy_i8 tidy_le_u16 tidy_be_u16 tidy_le_u24 tidy_be_u24 tidy_le_u32
  tidy_be_u32 tidy_le_u48 tidy_le_u64 tidy_le_u128 tidy_le_f32 : tidy.
Lemma tidy_le_i16 : tidy read_le_i16. Proof. unfold read_le_i16. td. Qed.
Lemma tidy_be_i16 : tidy read_be_i16. Proof. unfold read_be_i16. td. Qed.
Lemma tidy_le_i24 : tidy read_le_i24. Proof. unfold read_le_i24. td. Qed.
Lemma tidy_be_i24 : tidy read_be_i24. Proof. unfold read_be_i24. td. Qed.
Lemma tidy_le_i32 : tidy read_le_i32. Proof. unfold read_le_i32. td. Qed.
Lemma tidy_be_i32 : tidy read_be_i32. Proof. unfold read_be_i32. td. Qed.
Lemma tidy_be_i40 : tidy read_be_i40. Proof. unfold read_be_i40. td. Qed.
Lemma tidy_le_i48 : tidy read_le_i48. Proof. unfold read_le_i48. td. Qed.
Lemma tidy_le_i64 : tidy read_le_i64. Proof. unfold read_le_i64. td. Qed.
Lemma tidy_le_i128 : tidy read_le_i128. Proof. unfold read_le_i128. td. Qed.
#[export] Hint Resolve tidy_le_i16 tidy_be_i16 tidy_le_i24 tidy_be_i24 tidy_le_i32 tidy_be_i32 tidy_be_i40 tidy_le_i48
  tidy_le_i64 tidy_le_i128 : tidy.

(** a decoder that fails on empty input and is otherwise tidy *)
Lemma tidy_lei : tidy read_len_enc_int.
Proof.
  assert (tidy (len <- read_u8 ;;
     if len =? 0xfb then pret LeiNull
     else if len =? 0xfc then pmap Len3 read_le_u16
     else if len =? 0xfd then pmap Len4 read_le_u24
     else if len =? 0xfe then pmap Len9 read_le_u64
     else if len =? 0xff then pret LeiErr
     else pret (Len1 len))) as T by td.
  split; [apply good_suffix, good_read_lei|]. intros u r e a H. destruct u as [|b u].
  - cbn [app] in *. destruct r as [|b r]; [discriminate|]. exfalso.
    unfold read_len_enc_int in H. destruct (proj1 T (b :: r)) as [v E]. rewrite H in E. cbn [snd] in E.
    assert (v = []) as -> by (apply (app_inv_tail (b :: r)); symmetry; exact E).
    change (b :: r) with ([] ++ (b :: r)) in H at 1. apply (proj2 T _ _ []) in H. discriminate.
  - exact (proj2 T _ _ _ _ H).
Qed.
#[export] Hint Resolve tidy_lei : tidy.
Lemma tidy_les : tidy read_len_enc_str. Proof. unfold read_len_enc_str. td. Qed.
#[export] Hint Resolve tidy_les : tidy.

(** ** packets *)
Lemma tidy_packet : tidy read_packet. Proof. unfold read_packet. td. Qed.
Lemma tidy_status n : tidy (status_from_bits n). Proof. unfold status_from_bits. td. Qed.
Lemma tidy_lei64 : tidy read_lei_u64. Proof. unfold read_lei_u64. td. Qed.
Lemma tidy_les_bytes : tidy read_les_bytes. Proof. unfold read_les_bytes. td. Qed.
Lemma tidy_les_string : tidy read_les_string. Proof. unfold read_les_string. td. Qed.
#[export] Hint Resolve tidy_status tidy_lei64 tidy_les_bytes tidy_les_string : tidy.
Lemma tidy_eof cap : tidy (read_eof_packet cap). Proof. unfold read_eof_packet. td. Qed.
Lemma tidy_ok cap : contains cap SESSION_TRACK = true -> tidy (read_ok_packet cap).
Proof. intros H. unfold read_ok_packet. rewrite H. td. Qed.
Lemma tidy_greeting : tidy read_initial_handshake. Proof. unfold read_initial_handshake. td. Qed.
Lemma tidy_column_def fl : tidy (read_column_def fl). Proof. unfold read_column_def. td. Qed.
Lemma tidy_prepare_ok : tidy read_stmt_prepare_ok. Proof. unfold read_stmt_prepare_ok. td. Qed.
Lemma tidy_command : tidy read_command. Proof. unfold read_command. td. Qed.
#[export] Hint Resolve tidy_command : tidy.
Lemma tidy_dump_gtid : tidy read_binlog_dump_gtid. Proof. unfold read_binlog_dump_gtid. td. Qed.

(** ** values *)
Lemma tidy_text_value : tidy read_text_value. Proof. unfold read_text_value. td. Qed.
#[export] Hint Resolve tidy_text_value : tidy.
Lemma tidy_text_row n : tidy (read_text_row n). Proof. unfold read_text_row. td. Qed.
Lemma tidy_les_value w : tidy (read_les_value w). Proof. unfold read_les_value. td. Qed.
Lemma tidy_binary_date : tidy read_binary_date. Proof. unfold read_binary_date. td. Qed.
Lemma tidy_binary_time : tidy read_binary_time. Proof. unfold read_binary_time. td. Qed.
Lemma tidy_binary_datetime : tidy read_binary_datetime. Proof. unfold read_binary_datetime. td. Qed.
#[export] Hint Resolve tidy_les_value tidy_binary_date tidy_binary_time tidy_binary_datetime : tidy.
Lemma tidy_binary_value ct : tidy (read_binary_value ct). Proof. unfold read_binary_value. td. Qed.
#[export] Hint Resolve tidy_binary_value : tidy.
Lemma tidy_binary_cols cts bits : forall idx, tidy (read_binary_cols cts bits idx).
Proof. induction cts as [|ct cts IH]; intros idx; cbn [read_binary_cols]; td. Qed.
#[export] Hint Resolve tidy_binary_cols : tidy.
Lemma tidy_binary_row cts : tidy (read_binary_row cts). Proof. unfold read_binary_row. td. Qed.
Lemma tidy_packed_time frac : tidy (packed_from_time_binary frac). Proof. unfold packed_from_time_binary. td. Qed.
Lemma tidy_packed_datetime frac : tidy (packed_from_datetime_binary frac). Proof. unfold packed_from_datetime_binary. td. Qed.
#[export] Hint Resolve tidy_packed_time tidy_packed_datetime : tidy.
Lemma tidy_time frac : tidy (time_from_binlog frac). Proof. unfold time_from_binlog. td. Qed.
Lemma tidy_datetime frac : tidy (datetime_from_binlog frac). Proof. unfold datetime_from_binlog. td. Qed.
#[export] Hint Resolve tidy_time tidy_datetime : tidy.
Lemma tidy_binlog_value m : (forall prec frac, m <> MNewDecimal prec frac) -> tidy (read_binlog_value m).
Proof. intros H. destruct m; cbn [read_binlog_value]; try (td; fail). exfalso. eapply H. reflexivity. Qed.
Lemma tidy_column_meta ct : tidy (read_column_meta ct). Proof. unfold read_column_meta. td. Qed.
#[export] Hint Resolve tidy_column_meta : tidy.
Lemma tidy_metas_loop n defs : forall i, tidy (read_column_metas_loop n i defs).
Proof. induction n as [|n IH]; intros i; cbn [read_column_metas_loop]; td. Qed.
#[export] Hint Resolve tidy_metas_loop : tidy.
Lemma tidy_metas n defs : tidy (read_column_metas n defs). Proof. unfold read_column_metas. td. Qed.

(** ** events *)
Lemma tidy_event_type : tidy read_event_type. Proof. unfold read_event_type. td. Qed.
Lemma tidy_event_length : tidy read_event_length. Proof. unfold read_event_length. td. Qed.
Lemma tidy_header_v1 : tidy read_event_header_v1. Proof. unfold read_event_header_v1. td. Qed.
#[export] Hint Resolve tidy_header_v1 : tidy.
Lemma tidy_header : tidy read_event_header. Proof. unfold read_event_header. td. Qed.
#[export] Hint Resolve tidy_header : tidy.
Lemma tidy_start : tidy read_start_data. Proof. unfold read_start_data. td. Qed.
Lemma tidy_skip self : tidy (skip_event self). Proof. unfold skip_event. td. Qed.
Lemma tidy_from_fde : tidy from_fde_bytes.
Proof. unfold from_fde_bytes. td. Qed.
Lemma tidy_incident : tidy read_incident. Proof. unfold read_incident. td. Qed.
Lemma tidy_intvar : tidy read_intvar. Proof. unfold read_intvar. td. Qed.
Lemma tidy_rand : tidy read_rand. Proof. unfold read_rand. td. Qed.
Lemma tidy_intervals n : forall last, tidy (read_gtid_intervals n last).
Proof. induction n as [|n IH]; intros last; cbn [read_gtid_intervals]; td. Qed.
#[export] Hint Resolve tidy_intervals : tidy.
Lemma tidy_gtid_range : tidy read_gtid_range. Proof. unfold read_gtid_range. td. Qed.
#[export] Hint Resolve tidy_gtid_range : tidy.
Lemma tidy_gtid_set : tidy read_gtid_set. Proof. unfold read_gtid_set. td. Qed.
Lemma tidy_status_var : tidy read_status_var. Proof. unfold read_status_var. td. Qed.
Lemma tidy_raw_table_map : tidy read_raw_table_map. Proof. unfold read_raw_table_map. td. Qed.
Lemma tidy_n_cols : tidy read_n_cols. Proof. unfold read_n_cols. td. Qed.
#[export] Hint Resolve tidy_n_cols tidy_raw_table_map tidy_status_var tidy_gtid_set tidy_from_fde tidy_start tidy_metas : tidy.

(** *** events with a checksum: the check looks at a copy of the bytes that are consumed afterwards *)
Lemma read_len_used n u r e : read_len n (u ++ r) = (Ok u, r) -> read_len n (u ++ e) = (Ok u, e).
Proof. apply tidy_len. Qed.
Definition uses (k : nat) {A} (p : parser A) : Prop :=
  forall bs a rest, p bs = (Ok a, rest) -> length bs = (k + length rest)%nat.
Lemma uses_bind {A B} k j (p : parser A) (f : A -> parser B) : uses k p -> (forall a, uses j (f a)) -> uses (k + j) (pbind p f).
Proof.
  intros Hp Hf bs b rest H. apply pbind_inv in H. destruct H as (a & mid & H1 & H2).
  apply Hp in H1. apply Hf in H2. lia.
Qed.
Lemma uses_ret {A} (a : A) : uses 0 (pret a). Proof. intros bs b rest H. injection H as _ ->. reflexivity. Qed.
Lemma uses_lift {A} (x : res A) : uses 0 (plift x). Proof. intros bs b rest H. injection H as _ ->. reflexivity. Qed.
Lemma uses_u8 : uses 1 read_u8. Proof. intros [|b bs] a rest H; [discriminate|]. injection H as _ ->. reflexivity. Qed.
Lemma uses_take {B} k (f : bytes -> B) : uses k (pmap f (take k)).
Proof.
  intros bs a rest H. apply pmap_inv in H. destruct H as (x & H & _). unfold take in H.
  destruct (Nat.ltb_spec (length bs) k); [discriminate|]. assert (rest = skipn k bs) as -> by congruence.
  rewrite skipn_length. lia.
Qed.
Lemma header_len : uses 19 read_event_header.
Proof.
  apply (uses_bind 13 6).
  - apply (uses_bind 4 9); [apply uses_take|intros]. apply (uses_bind 1 8); [apply uses_u8|intros].
    apply (uses_bind 4 4); [apply uses_take|intros]. apply (uses_bind 4 0); [apply uses_take|intros].
    apply (uses_bind 0 0); [apply uses_lift|intros]. apply uses_ret.
  - intros. apply (uses_bind 4 2); [apply uses_take|intros]. apply (uses_bind 2 0); [apply uses_take|intros]. apply uses_ret.
Qed.
Lemma parse_used crc self v u r o : parse_event crc self v (u ++ r) = (Ok o, r) ->
  exists h, (19 <= length u)%nat /\ (exists m, read_event_header u = (Ok h, m)) /\ h_event_len h = blen u.
Proof.
  intros H. unfold parse_event in H. apply pbind_inv in H. destruct H as ([] & mid & H1 & H).
  assert (mid = u ++ r) as ->.
  { destruct (_ && _); [|injection H1; auto]. unfold check_checksum in H1.
    apply pbind_inv in H1. destruct H1 as (h & m1 & A1 & H1). unfold ppeek in A1. injection A1 as _ <-.
    apply pbind_inv in H1. destruct H1 as (d & m2 & A1 & H1). unfold ppeek in A1. injection A1 as _ <-.
    apply pbind_inv in H1. destruct H1 as (n & m3 & A1 & H1). unfold plift in A1. injection A1 as _ <-.
    unfold split_at in H1. cbv beta zeta in H1.
    apply pbind_inv in H1. destruct H1 as (x & m4 & A1 & H1). unfold plift in A1. injection A1 as _ <-.
    destruct (_ =? _) in H1; [injection H1; auto|discriminate]. }
  clear H1. apply pbind_inv in H. destruct H as (h & m1 & H1 & H).
  apply pbind_inv in H. destruct H as (len & m2 & H2 & H). unfold plift in H2. injection H2 as H2 <-.
  apply pbind_inv in H. destruct H as (data & m3 & H3 & H).
  apply pbind_inv in H. destruct H as (data' & m4 & H4 & H).
  assert (m4 = r) as -> by (destruct (event_kind_of (h_type h)); injection H; auto).
  assert (m3 = r) as ->.
  { destruct (p_checksum self); [|injection H4; auto]. apply pbind_inv in H4. destruct H4 as (n & m5 & H4 & H5).
    unfold plift in H4. injection H4 as _ <-. injection H5; auto. }
  clear H4 H. destruct (proj1 tidy_header (u ++ r)) as [u1 E1]. rewrite H1 in E1. cbn [snd] in E1.
  destruct (proj1 (tidy_len len) m1) as [u2 E2]. rewrite H3 in E2. cbn [snd] in E2.
  pose proof (app_split3 _ _ _ _ _ E1 E2) as ->. subst m1.
  rewrite <- app_assoc in H1. pose proof (header_len _ _ _ H1) as L. rewrite !app_length in L.
  exists h. split; [rewrite app_length; lia|]. split.
  - exists u2. apply (proj2 tidy_header _ _ _ _ H1).
  - unfold data_len, csub in H2. destruct (N.ltb_spec (h_event_len h) 19); [discriminate|]. injection H2 as H2.
    unfold read_len in H3. destruct (N.ltb_spec (blen (u2 ++ r)) len); [discriminate|].
    assert (skipn (N.to_nat len) (u2 ++ r) = r) as S by congruence.
    apply firstn_skip_tail in S; [|unfold blen in *; lia]. unfold blen in *. rewrite app_length in *. lia.
Qed.
Lemma check_used crc u r e h m : read_event_header u = (Ok h, m) -> h_event_len h = blen u ->
  fst (check_checksum crc (u ++ e)) = fst (check_checksum crc (u ++ r)) /\ snd (check_checksum crc (u ++ e)) = u ++ e.
Proof.
  intros Hh Hl. assert (forall x, read_event_header (u ++ x) = (Ok h, m ++ x)) as A.
  { intros x. destruct (proj1 tidy_header u) as [v E]. rewrite Hh in E. cbn [snd] in E. subst u.
    rewrite <- app_assoc. apply (proj2 tidy_header v m). exact Hh. }
  assert (forall x, read_len (h_event_len h) (u ++ x) = (Ok u, x)) as B.
  { intros x. unfold read_len. rewrite Hl. unfold blen. destruct (N.ltb_spec (N.of_nat (length (u ++ x))) (N.of_nat (length u))) as [C|C];
      [rewrite app_length in C; lia|]. rewrite Nat2N.id, firstn_app, firstn_all, Nat.sub_diag, app_nil_r, skipn_app, skipn_all, Nat.sub_diag. reflexivity. }
  assert (forall x, fst (check_checksum crc (u ++ x)) = rbind (csub (blen u) 4) (fun n =>
     let '(raw, sum) := split_at n u in rbind (fst (read_le_u32 sum)) (fun w => if w =? crc raw then Ok tt else Err (EChecksum w (crc raw))))
     /\ snd (check_checksum crc (u ++ x)) = u ++ x) as C.
  { intros x. unfold check_checksum, ppeek, pbind, plift. rewrite A. cbn [fst]. rewrite B. cbn [fst].
    destruct (csub (blen u) 4) as [n| | |]; cbn [rbind fst snd]; auto. unfold split_at.
    destruct (read_le_u32 (skipn (N.to_nat n) u)) as [[w| | |] t]; cbn [rbind fst snd]; auto.
    destruct (_ =? _); auto. }
  destruct (C e) as [C1 C2], (C r) as [C3 C4]. rewrite C1, C3, C2. auto.
Qed.
Lemma tidy_parse_tail (self : parser_v4) : tidy (
  header <- read_event_header ;;
  len <- plift (data_len header) ;;
  data <- read_len len ;;
  data <- (if p_checksum self
           then n <- plift (csub (blen data) 4) ;; pret (fst (split_at n data))
           else pret data) ;;
  match event_kind_of (h_type header) with
  | Some k => pret (Some (mk_event k header data))
  | None => pret None
  end).
Proof. td. Qed.
Lemma suffix_checksum crc : suffix_p (check_checksum crc).
Proof. unfold check_checksum. pt. Qed.
#[export] Hint Resolve suffix_checksum : parse.
Lemma tidy_event crc self v : tidy (parse_event crc self v).
Proof.
  split.
  - unfold parse_event. apply suffix_bind; [pt|]. intros _. apply tidy_parse_tail.
  - intros u r e o H. destruct (parse_used _ _ _ _ _ _ H) as (h & L & (m & Hh) & Hl).
    unfold parse_event in *. destruct (p_checksum self && v) eqn:Ev.
    + destruct (check_used crc u r e h m Hh Hl) as [C1 C2]. destruct (check_used crc u e r h m Hh Hl) as [_ C3].
      apply pbind_inv in H. destruct H as ([] & mid & H1 & H). rewrite H1 in C1, C3. cbn [fst snd] in C1, C3. subst mid.
      eapply eq_trans; [eapply pbind_ok with (rest := u ++ e); rewrite <- C2 at 2; rewrite <- C1; apply surjective_pairing|].
      cbv beta. apply (proj2 (tidy_parse_tail self) _ _ _ _ H).
    + apply pbind_inv in H. destruct H as ([] & mid & H1 & H). injection H1 as <-.
      eapply eq_trans; [eapply pbind_ok; reflexivity|]. cbv beta. apply (proj2 (tidy_parse_tail self) _ _ _ _ H).
Qed.

(** *** files *)
Lemma suffix_version : suffix_p read_binlog_version.
Proof. unfold read_binlog_version. pt. Qed.
#[export] Hint Resolve suffix_version : parse.
Lemma fde_used u r x : from_fde_bytes (u ++ r) = (Ok x, r) -> exists h m, read_event_header u = (Ok h, m).
Proof.
  intros H. unfold from_fde_bytes in H. apply pbind_inv in H. destruct H as (h & m1 & H1 & H).
  destruct (proj1 tidy_header (u ++ r)) as [u1 E1]. rewrite H1 in E1. cbn [snd] in E1.
  match type of H with ?q m1 = _ => assert (suffix_p q) as S by (apply tidy_suffix; td) end.
  destruct (S m1) as [u2 E2]. rewrite H in E2. cbn [snd] in E2.
  pose proof (app_split3 _ _ _ _ _ E1 E2) as ->. subst m1. rewrite <- app_assoc in H1.
  exists h, u2. apply (proj2 tidy_header _ _ _ _ H1).
Qed.
Lemma header_ext u h m x : read_event_header u = (Ok h, m) -> read_event_header (u ++ x) = (Ok h, m ++ x).
Proof.
  intros H. destruct (proj1 tidy_header u) as [v E]. rewrite H in E. cbn [snd] in E. subst u.
  rewrite <- app_assoc. apply (proj2 tidy_header v m). exact H.
Qed.
Lemma tidy_from_file : tidy from_binlog_file.
Proof.
  split.
  - unfold from_binlog_file. apply suffix_bind; [apply suffix_version|]. intros v. apply tidy_suffix. td.
  - intros u r e p H. unfold from_binlog_file in H. apply pbind_inv in H. destruct H as (v & m1 & H1 & H).
    destruct v; [discriminate|discriminate|]. apply pbind_inv in H. destruct H as ([q x] & m2 & H2 & H).
    injection H as <- ->. unfold read_binlog_version in H1. apply pbind_inv in H1. destruct H1 as (mg & m3 & H1 & H3).
    destruct (negb (beqb mg magic)) eqn:Em; [discriminate|].
    apply pbind_inv in H3. destruct H3 as (h & m4 & H3 & H4). unfold ppeek in H3. injection H3 as H3 <-.
    assert (m1 = m3) as -> by (destruct (h_type h); try discriminate H4; try (injection H4; auto; fail); destruct (h_event_len h <? 75); discriminate H4).
    destruct (proj1 (tidy_len 4) (u ++ r)) as [u1 E1]. rewrite H1 in E1. cbn [snd] in E1.
    destruct (proj1 tidy_from_fde m3) as [u2 E2]. rewrite H2 in E2. cbn [snd] in E2.
    pose proof (app_split3 _ _ _ _ _ E1 E2) as ->. subst m3. rewrite <- app_assoc in H1 |- *.
    destruct (fde_used _ _ _ H2) as (h2 & m & Hh).
    assert (h2 = h) as -> by (rewrite (header_ext _ _ _ r Hh) in H3; cbn [fst] in H3; congruence).
    unfold from_binlog_file. eapply eq_trans.
    { eapply pbind_ok with (a := V4) (rest := u2 ++ e). unfold read_binlog_version.
      eapply eq_trans; [eapply pbind_ok; apply (proj2 (tidy_len 4) _ _ (u2 ++ e) _ H1)|]. cbv beta. rewrite Em.
      eapply eq_trans; [eapply pbind_ok with (a := h) (rest := u2 ++ e)|].
      - unfold ppeek. rewrite (header_ext _ _ _ e Hh). reflexivity.
      - cbv beta. destruct (h_type h); try discriminate H4; try reflexivity; destruct (h_event_len h <? 75); discriminate H4. }
    cbv beta iota. eapply eq_trans; [eapply pbind_ok; apply (proj2 tidy_from_fde _ _ e _ H2)|]. reflexivity.
Qed.

(** ** the catalogue *)
Lemma self_delimiting_tidy A (p : parser A) : self_delimiting p -> tidy p.
Proof.
  intros H. destruct H; auto with tidy nocore.
  - apply tidy_packet.
  - apply tidy_eof.
  - apply tidy_ok; assumption.
  - apply tidy_greeting.
  - apply tidy_column_def.
  - apply tidy_prepare_ok.
  - apply tidy_dump_gtid.
  - apply tidy_text_row.
  - apply tidy_binary_row.
  - apply tidy_binlog_value; assumption.
  - apply tidy_event_type.
  - apply tidy_event_length.
  - apply tidy_event.
  - apply tidy_skip.
  - apply tidy_from_file.
  - apply tidy_incident.
  - apply tidy_intvar.
  - apply tidy_rand.
Qed.
Lemma self_delimiting_self A (p : parser A) : self_delimiting p -> self_contained p.
Proof. intros H. apply (self_delimiting_tidy _ _ H). Qed.

(** cutting the bytes used short is never accepted *)
Lemma tidy_cut A (p : parser A) bs a rest : tidy p -> p bs = (Ok a, rest) ->
  exists used, bs = used ++ rest /\ (forall ext, p (used ++ ext) = (Ok a, ext)) /\
    (forall pre missing b r, used = pre ++ missing -> missing <> [] -> p pre <> (Ok b, r)).
Proof.
  intros [S L] H. destruct (S bs) as [u E]. rewrite H in E. cbn [snd] in E. exists u. split; [exact E|].
  rewrite E in H. assert (forall ext, p (u ++ ext) = (Ok a, ext)) as X by (intros ext; apply (L _ _ _ _ H)).
  split; [exact X|]. intros pre mis b r -> Hm Hp.
  destruct (S pre) as [v E2]. rewrite Hp in E2. cbn [snd] in E2. rewrite E2 in Hp.
  pose proof (L _ _ (r ++ mis) _ Hp) as Hq. specialize (X []). rewrite app_nil_r in X.
  rewrite E2 in X at 1. rewrite <- app_assoc in X. rewrite X in Hq. injection Hq as _ Hq.
  symmetry in Hq. apply app_eq_nil in Hq. destruct Hq as [_ Hq]. contradiction.
Qed.

(** ** open-ended decoders *)
Ltac sx := repeat (cbv beta zeta; first
  [ solve [auto with parse nocore]
  | solve [apply tidy_suffix; auto with tidy nocore]
  | match goal with
    | |- suffix_p (pbind _ _) => apply suffix_bind; [|intros ?]
    | |- suffix_p (pmap _ _) => apply suffix_map
    | |- suffix_p (if ?c then _ else _) => destruct c
    | |- suffix_p (match ?x with _ => _ end) => destruct x
    end ]).
Lemma suffix_while {A} (p : parser A) : suffix_p p -> suffix_p (while_remaining p).
Proof.
  intros Hp. assert (forall n, suffix_p (pwhile n p)) as W.
  { induction n as [|n IH]; intros [|b bs].
    - exists []; reflexivity.
    - exists []; reflexivity.
    - exists []; reflexivity.
    - change (exists used, b :: bs = used ++ snd ((a <- p ;; l <- pwhile n p ;; pret (a :: l)) (b :: bs))).
      apply suffix_at. sx. }
  intros bs. apply W.
Qed.
#[export] Hint Resolve suffix_while : parse.
Ltac sxp := match goal with |- suffix_p (fun bs => match bs with _ => _ end) => intros [|? ?]; [exists []; reflexivity|apply suffix_at; sx] end.
Lemma sf_field_list cap sql : suffix_p (read_field_list_response cap sql).
Proof. unfold read_field_list_response. intros [|? ?]; [exists []; reflexivity|apply suffix_at]. sx. apply tidy_suffix, tidy_column_def. Qed.
Lemma sf_debug cap : suffix_p (read_debug_response cap). Proof. unfold read_debug_response. sxp. Qed.
Lemma sf_set_option cap : suffix_p (read_set_option_response cap). Proof. unfold read_set_option_response. sxp. Qed.
Lemma sf_change_user cap : suffix_p (read_change_user_response cap). Proof. unfold read_change_user_response. sxp. Qed.
Lemma sf_dump : suffix_p read_binlog_dump. Proof. unfold read_binlog_dump. sx. Qed.
Lemma sf_logical_ts : suffix_p read_logical_ts. Proof. unfold read_logical_ts. sx. Qed.
#[export] Hint Resolve sf_logical_ts : parse.
Lemma sf_gtid : suffix_p read_gtid_log. Proof. unfold read_gtid_log. sx. Qed.
#[export] Hint Resolve sf_gtid : parse.
Lemma sf_anonymous : suffix_p read_anonymous_gtid_log. Proof. unfold read_anonymous_gtid_log. sx. Qed.
Lemma sf_rotate : suffix_p read_rotate. Proof. unfold read_rotate. sx. Qed.
Lemma sf_user_var : suffix_p read_user_var. Proof. unfold read_user_var. sx. Qed.
Lemma sf_user_var_value : suffix_p read_user_var_value. Proof. unfold read_user_var_value. sx. Qed.
Lemma sf_load_names a b c : suffix_p (read_load_names a b c). Proof. unfold read_load_names. sx. Qed.
#[export] Hint Resolve sf_load_names : parse.
Lemma sf_load : suffix_p read_load. Proof. unfold read_load. sx. Qed.
Lemma sf_new_load : suffix_p read_new_load. Proof. unfold read_new_load. sx. Qed.
Lemma sf_create_file : suffix_p read_create_file. Proof. unfold read_create_file. sx. Qed.
Lemma sf_append_block : suffix_p read_append_block. Proof. unfold read_append_block. sx. Qed.
Lemma sf_begin_load_query : suffix_p read_begin_load_query. Proof. unfold read_begin_load_query. sx. Qed.
Lemma sf_execute_load_query : suffix_p read_execute_load_query. Proof. unfold read_execute_load_query. sx. Qed.
Lemma sf_query : suffix_p read_query_data. Proof. unfold read_query_data. sx. Qed.
Lemma sf_status_vars : suffix_p read_status_vars. Proof. unfold read_status_vars. apply suffix_while. sx. Qed.
Lemma sf_table_map : suffix_p read_table_map_data. Proof. unfold read_table_map_data. sx. Qed.
Lemma sf_rows_v1 : suffix_p read_write_rows_v1. Proof. unfold read_write_rows_v1. sx. Qed.
Lemma sf_rows_v2 : suffix_p read_write_rows_v2. Proof. unfold read_write_rows_v2. sx. Qed.
#[export] Hint Resolve sf_rows_v1 sf_rows_v2 : parse.
Lemma tidy_extra rev len neg : tidy (read_extra_fragment rev len neg). Proof. unfold read_extra_fragment. td. Qed.
Lemma tidy_fragment neg : tidy (read_fragment neg). Proof. unfold read_fragment. td. Qed.
#[export] Hint Resolve tidy_extra tidy_fragment : tidy.
Lemma sf_decimal intg frac : suffix_p (read_decimal intg frac).
Proof.
  unfold read_decimal. cbv zeta. apply suffix_bind; [sx|intros il]. apply suffix_bind; [sx|intros fl].
  intros [|b bs]; [exists []; reflexivity|]. apply suffix_at. apply tidy_suffix. td.
Qed.
#[export] Hint Resolve sf_decimal : parse.
Lemma sf_binlog_value m : suffix_p (read_binlog_value m).
Proof.
  destruct m; try (apply tidy_suffix, tidy_binlog_value; discriminate). cbn [read_binlog_value]. sx.
Qed.
#[export] Hint Resolve sf_binlog_value : parse.
Lemma sf_log_cols n bm ms : forall i, suffix_p (read_log_cols n i bm ms).
Proof. induction n as [|n IH]; intros i; cbn [read_log_cols]; sx. Qed.
#[export] Hint Resolve sf_log_cols : parse.
Lemma sf_log_row n bm ms : suffix_p (read_log_row n bm ms). Proof. unfold read_log_row. sx. Qed.
#[export] Hint Resolve sf_log_row : parse.
Lemma sf_row_image n pb k ms : suffix_p (read_row_image n pb k ms). Proof. unfold read_row_image. sx. Qed.
#[export] Hint Resolve sf_row_image : parse.
Lemma sf_rows len ms : suffix_p (read_rows_v2 len ms).
Proof. unfold read_rows_v2. sx. Qed.
Lemma sf_update_rows len ms : suffix_p (read_update_rows len ms).
Proof. unfold read_update_rows. sx. Qed.
Lemma sf_split n : suffix_p (split_to n).
Proof.
  unfold split_to. intros bs. destruct (_ <? _); [exists []; reflexivity|].
  exists (firstn (N.to_nat n) bs). cbn [snd]. symmetry. apply firstn_skipn.
Qed.
#[export] Hint Resolve sf_split : parse.
Lemma sf_fde : suffix_p read_fde.
Proof.
  unfold read_fde. sx; try (intros bs; exists []; reflexivity).
Qed.
Lemma open_ended_suffix A (p : parser A) : open_ended p -> suffix_p p.
Proof.
  intros H. destruct H; auto with parse nocore.
  - apply sf_field_list.
  - apply sf_debug.
  - apply sf_set_option.
  - apply sf_change_user.
  - apply sf_dump.
  - apply sf_anonymous.
  - apply sf_rotate.
  - apply sf_user_var.
  - apply sf_user_var_value.
  - apply sf_create_file.
  - apply sf_append_block.
  - apply sf_begin_load_query.
  - apply sf_execute_load_query.
  - apply sf_query.
  - apply sf_status_vars.
  - apply sf_table_map.
  - unfold read_update_rows_v1. sx.
  - unfold read_delete_rows_v1. sx.
  - unfold read_update_rows_v2. sx.
  - unfold read_delete_rows_v2. sx.
  - apply sf_load.
  - apply sf_new_load.
  - apply sf_fde.
  - apply tidy_suffix, tidy_metas.
  - apply sf_rows.
  - apply sf_update_rows.
Qed.
Lemma decoder_suffix A (p : parser A) : self_delimiting p \/ open_ended p -> suffix_p p.
Proof. intros [H|H]; [apply (self_delimiting_tidy _ _ H)|apply (open_ended_suffix _ _ H)]. Qed.
Lemma decimal_self prec frac used rest ext a : used <> [] ->
  read_binlog_value (MNewDecimal prec frac) (used ++ rest) = (Ok a, rest) ->
  read_binlog_value (MNewDecimal prec frac) (used ++ ext) = (Ok a, ext).
Proof.
  intros Hu. cbn [read_binlog_value]. destruct (prec <? frac); [discriminate|].
  destruct used as [|b used]; [congruence|]. intros H. apply pmap_inv in H. destruct H as (x & H & <-).
  assert (read_decimal (prec - frac) frac ((b :: used) ++ ext) = (Ok x, ext)) as E.
  { unfold read_decimal in *. cbv zeta in *. apply pbind_inv in H. destruct H as (il & m1 & H1 & H). unfold plift in H1. injection H1 as E1 <-.
    apply pbind_inv in H. destruct H as (fl & m2 & H1 & H). unfold plift in H1. injection H1 as E2 <-.
    unfold pbind at 1. unfold plift at 1. rewrite E1. unfold pbind at 1. unfold plift at 1. rewrite E2. cbn [app] in *.
    match type of H with ?p (b :: used ++ rest) = _ => assert (tidy p) as [_ T] by td; apply (T (b :: used) rest ext x H) end. }
  unfold pmap. rewrite (pbind_ok _ _ _ _ _ E). reflexivity.
Qed.
Lemma decimal_empty prec frac : frac <= prec ->
  read_binlog_value (MNewDecimal prec frac) [] = (Ok (LNewDecimal (dec_zero (prec - frac) frac)), []).
Proof.
  intros L. cbn [read_binlog_value]. destruct (N.ltb_spec prec frac); [lia|]. unfold pmap, read_decimal. cbv zeta. unfold pbind, plift.
  assert (forall n, n - n / DIG_PER_DEC1 * DIG_PER_DEC1 < 9) as B by (intros n; unfold DIG_PER_DEC1; lia).
  assert (forall n, n < 9 -> exists k, tget DIG_TO_BYTES n = Ok k) as K.
  { intros n Hn. assert (n = 0 \/ n = 1 \/ n = 2 \/ n = 3 \/ n = 4 \/ n = 5 \/ n = 6 \/ n = 7 \/ n = 8) as C by lia.
    repeat (destruct C as [-> |C]; [eexists; reflexivity|]). subst. eexists. reflexivity. }
  destruct (K _ (B (prec - frac))) as [k1 ->]. destruct (K _ (B frac)) as [k2 ->]. reflexivity.
Qed.
