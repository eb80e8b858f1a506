(** * What is decoded fits in what was read *)
From Coq Require Import List NArith ZArith Lia Arith Bool.
From Verif Require Import Model.Base Model.BytesParser Model.LenEnc Model.Utf8 Model.Flags Model.Bitmap Model.Time Model.Decimal Model.Cmd Model.Packet Model.Col
  Model.Row Model.Event Model.EventBody Model.Rows Model.Stmt Model.StmtDefs Model.Session Spec.Sizes Proofs.PacketProofs.
Import ListNotations.
Local Open Scope nat_scope.

(** ** Rules *)
Lemma w_bind {A B} (w1 : A -> nat) (w : B -> nat) p f :
  within w1 p -> (forall a, within (fun b => w b - w1 a) (f a)) -> within w (pbind p f).
Proof.
  intros Hp Hf bs b rest. unfold pbind. destruct (p bs) as [r r1] eqn:E. destruct r; try discriminate.
  intros H. specialize (Hp _ _ _ E). specialize (Hf _ _ _ _ H). cbn beta in Hf. lia.
Qed.
Lemma w_assoc {A B C} (w : C -> nat) (p : parser A) (g : A -> parser B) (f : B -> parser C) :
  within w (pbind p (fun a => pbind (g a) f)) -> within w (pbind (pbind p g) f).
Proof.
  intros H bs c rest E. apply (H bs c rest). rewrite <- E. unfold pbind. destruct (p bs) as [[ | | | ] ?]; reflexivity.
Qed.
Lemma w_lift {A B} (w : B -> nat) (x : res A) f :
  (forall a, x = Ok a -> within w (f a)) -> within w (pbind (plift x) f).
Proof.
  intros H bs b rest. unfold pbind, plift. destruct x; try discriminate. apply H. reflexivity.
Qed.
Lemma w_lift_end {A} (w : A -> nat) (x : res A) :
  (forall a, x = Ok a -> w a = 0) -> within w (plift x).
Proof. intros H bs b rest. unfold plift. intros E. injection E as E ->. rewrite (H _ E). lia. Qed.
Lemma w_ret_bind {A B} (w : B -> nat) (a : A) f : within w (f a) -> within w (pbind (pret a) f).
Proof. intros H bs b rest. exact (H bs b rest). Qed.
Lemma w_fail_bind {A B} (w : B -> nat) e (f : A -> parser B) : within w (pbind (pfail e) f).
Proof. intros bs b rest E. discriminate. Qed.
Lemma w_panic_bind {A B} (w : B -> nat) e (f : A -> parser B) : within w (pbind (ppanic e) f).
Proof. intros bs b rest E. discriminate. Qed.
Lemma w_ret {A} (w : A -> nat) a : w a = 0 -> within w (pret a).
Proof. intros H bs b rest E. injection E as <- <-. lia. Qed.
Lemma w_fail {A} (w : A -> nat) e : within w (pfail e). Proof. intros bs b rest E. discriminate. Qed.
Lemma w_panic {A} (w : A -> nat) e : within w (ppanic e). Proof. intros bs b rest E. discriminate. Qed.
Lemma w_le {A} (w1 w2 : A -> nat) p : (forall a, w1 a <= w2 a) -> within w2 p -> within w1 p.
Proof. intros H Hp bs a rest E. specialize (Hp _ _ _ E). specialize (H a). lia. Qed.
Lemma w_ext {A} (w : A -> nat) (p q : parser A) : (forall bs, p bs = q bs) -> within w q -> within w p.
Proof. intros H Hq bs a rest E. rewrite H in E. exact (Hq _ _ _ E). Qed.

(** ** Primitives *)
Lemma w_take k : within (fun _ => k) (take k).
Proof.
  intros bs a rest. unfold take. destruct (Nat.ltb_spec (length bs) k); [discriminate|]. intros E. injection E as <- <-.
  rewrite skipn_length. lia.
Qed.
Lemma w_u8 : within (fun _ => 1) read_u8.
Proof. intros [|b bs] a rest E; [discriminate|]. injection E as <- <-. cbn [length]. lia. Qed.
Lemma w_byte : within (fun _ => 1) read_byte.
Proof. intros [|b bs] a rest E; [discriminate|]. injection E as <- <-. cbn [length]. lia. Qed.
Lemma w_len n : within (@length byte) (read_len n).
Proof.
  intros bs a rest. unfold read_len. destruct (blen bs <? n)%N; [discriminate|]. intros E. injection E as <- <-.
  rewrite skipn_length, firstn_length. lia.
Qed.
Lemma w_split n : within (@length byte) (split_to n).
Proof.
  intros bs a rest. unfold split_to. destruct (blen bs <? n)%N; [discriminate|]. intros E. injection E as <- <-.
  rewrite skipn_length, firstn_length. lia.
Qed.
Lemma position_lt b bs : forall n, position b bs = Some n -> n < length bs.
Proof.
  induction bs as [|x bs IH]; [discriminate|]. intros n. cbn [position length]. destruct (Byte.eqb x b).
  - intros E. injection E as <-. lia.
  - destruct (position b bs); [|discriminate]. intros E. injection E as <-. specialize (IH n0 eq_refl). lia.
Qed.
Lemma okpair {A} (a a' : A) (r r' : bytes) : (Ok a, r) = (Ok a', r') -> a = a' /\ r = r'.
Proof. intros E. injection E as -> ->. split; reflexivity. Qed.
(** the delimiter is consumed as well *)
Lemma w_until b (i : bool) : within (fun s : bytes => if i then length s else S (length s)) (read_until b i).
Proof.
  intros bs a rest. unfold read_until. destruct (position b bs) as [n|] eqn:P; [|discriminate]. apply position_lt in P.
  destruct i; intros E; apply okpair in E as [<- <-].
  - rewrite skipn_length, firstn_length. lia.
  - replace (S n - 1) with n by lia. rewrite skipn_length, skipn_length, firstn_length. lia.
Qed.
Lemma w_rest : within (@length byte) read_rest.
Proof. intros bs a rest E. injection E as <- <-. cbn [length]. lia. Qed.
Lemma w_remaining : within (@nothing N) premaining.
Proof. intros bs a rest E. injection E as _ <-. unfold nothing. lia. Qed.
Lemma w_peek {A} (p : parser A) : within nothing (ppeek p).
Proof. intros bs a rest E. unfold ppeek in E. injection E as _ <-. unfold nothing. lia. Qed.
Lemma w_pmap {A B} (w : A -> nat) (w' : B -> nat) (f : A -> B) p :
  within w p -> (forall a, w' (f a) <= w a) -> within w' (pmap f p).
Proof. intros Hp H. eapply w_bind; [exact Hp|]. intros a. apply w_ret. specialize (H a). lia. Qed.
Lemma w_num k {B} (f : bytes -> B) : within (fun _ => k) (pmap f (take k)).
Proof. eapply w_pmap; [apply w_take|]. lia. Qed.
Lemma w_num2 k {B C} (g : B -> C) (f : bytes -> B) : within (fun _ => k) (pmap g (pmap f (take k))).
Proof. eapply w_pmap; [apply w_num|]. lia. Qed.
Lemma w_f64 : within (fun _ => 8) read_le_f64.
Proof.
  intros bs a rest. unfold read_le_f64. destruct (Nat.ltb_spec (length bs) 8) as [L|L].
  - unfold csub. destruct (4 <? blen bs)%N; discriminate.
  - apply w_num.
Qed.
Lemma w_be_u40 : within (fun _ => 5) read_be_u40.
Proof.
  intros bs a rest. unfold read_be_u40. destruct (length bs <? 5); [discriminate|].
  revert bs a rest. change (within (fun _ : N => 5) (n4 <- read_be_u32;; n1 <- read_u8;; pret (N.shiftl n4 8 + n1)%N)).
  eapply w_bind; [apply (w_num 4)|]. intros n4. eapply w_bind; [apply w_u8|]. intros n1. apply w_ret. reflexivity.
Qed.

(** results known by an equation *)
Lemma utf8_same s a : from_utf8 s = Ok a -> length a = length s.
Proof. unfold from_utf8. destruct (utf8_valid s); [|discriminate]. intros E. injection E as <-. reflexivity. Qed.
Lemma inner_until s b a : fst (read_until b false s) = Ok a -> length a <= length s.
Proof.
  destruct (read_until b false s) as [r rest] eqn:E. cbn [fst]. intros ->. apply w_until in E. cbn beta iota in E. lia.
Qed.
Lemma nul_until s a : until_nul s = Ok a -> length a <= length s. Proof. apply inner_until. Qed.
Lemma les_string_same s a : les_into_string s = Ok a -> length a = opt_size (les_bytes s).
Proof. destruct s; cbn [les_into_string les_bytes opt_size]; [intros E; injection E as <-; reflexivity..|apply utf8_same]. Qed.

Ltac facts :=
  repeat match goal with
  | H : from_utf8 _ = Ok _ |- _ => apply utf8_same in H
  | H : fst (read_until _ false _) = Ok _ |- _ => apply inner_until in H
  | H : until_nul _ = Ok _ |- _ => apply nul_until in H
  | H : les_into_string _ = Ok _ |- _ => apply les_string_same in H
  end.
Lemma w_lei : within (fun _ => 1) read_len_enc_int.
Proof.
  intros bs a rest. unfold read_len_enc_int. destruct bs as [|b bs]; [discriminate|].
  revert a rest. generalize (b :: bs). clear b bs.
  match goal with |- forall l a rest, ?p l = _ -> _ => change (within (fun _ => 1) p) end.
  eapply w_bind; [apply w_u8|]. intros len.
  repeat match goal with |- within _ (if ?c then _ else _) => destruct c end; try (apply w_ret; reflexivity);
    (eapply w_le; [|apply w_num2]); intros; cbv beta; lia.
Qed.
Lemma w_les : within (fun s => S (opt_size (les_bytes s))) read_len_enc_str.
Proof.
  eapply w_bind; [apply w_lei|]. intros l.
  destruct l; cbn [lei_to_u64]; try (apply w_ret; reflexivity);
    (eapply w_pmap; [apply w_len|]; intros s; cbn [les_bytes opt_size]; lia).
Qed.

Lemma w_le_u16 : within (fun _ => 2) read_le_u16. Proof. apply w_num. Qed.
Lemma w_be_u16 : within (fun _ => 2) read_be_u16. Proof. apply w_num. Qed.
Lemma w_le_u24 : within (fun _ => 3) read_le_u24. Proof. apply w_num. Qed.
Lemma w_be_u24 : within (fun _ => 3) read_be_u24. Proof. apply w_num. Qed.
Lemma w_le_u32 : within (fun _ => 4) read_le_u32. Proof. apply w_num. Qed.
Lemma w_be_u32 : within (fun _ => 4) read_be_u32. Proof. apply w_num. Qed.
Lemma w_le_u48 : within (fun _ => 6) read_le_u48. Proof. apply w_num. Qed.
Lemma w_le_u64 : within (fun _ => 8) read_le_u64. Proof. apply w_num. Qed.
Lemma w_le_u128 : within (fun _ => 16) read_le_u128. Proof. apply w_num. Qed.
Lemma w_le_f32 : within (fun _ => 4) read_le_f32. Proof. apply w_num. Qed.
Lemma w_le_i64 : within (fun _ => 8) read_le_i64. Proof. apply w_num2. Qed.
Create HintDb sizes.
#[local] Hint Resolve w_le_u16 w_be_u16 w_le_u24 w_be_u24 w_le_u32 w_be_u32 w_le_u48 w_le_u64 w_le_u128 w_le_f32 w_le_i64 : sizes.
#[local] Hint Resolve w_u8 w_byte w_len w_split w_until w_rest w_remaining w_f64 w_be_u40 w_lei w_les w_peek : sizes.
Ltac step1 :=
  match goal with
  | |- within _ (pbind (plift _) _) => apply w_lift; intros ? ?
  | |- within _ (pbind (pret _) _) => apply w_ret_bind
  | |- within _ (pbind (pfail _) _) => apply w_fail_bind
  | |- within _ (pbind (ppanic _) _) => apply w_panic_bind
  | |- within _ (pbind (pbind _ _) _) => apply w_assoc
  | |- within _ (pbind (if ?c then _ else _) _) => destruct c eqn:?
  | |- within _ (pbind (match ?c with _ => _ end) _) => destruct c eqn:?
  | |- within _ (pbind _ _) => eapply w_bind; [solve [eauto with sizes]|intros ?]
  | |- within _ (pmap _ _) => unfold pmap
  | |- within _ (pret _) => apply w_ret; facts
  | |- within _ (pfail _) => apply w_fail
  | |- within _ (ppanic _) => apply w_panic
  | |- within _ (if ?c then _ else _) => destruct c eqn:?
  | |- within _ (match ?c with _ => _ end) => destruct c eqn:?
  | |- within _ (let _ := _ in _) => cbv zeta
  end; cbv beta in *.
Ltac sizes := repeat step1; try (unfold nothing, counted, contents; cbn [list_sum map fold_right]; cbn; lia).

(** ** Lists *)
Lemma w_repeat {A} (size : A -> nat) (p : parser A) n : within (fun a => S (size a)) p -> within (counted size) (prepeat n p).
Proof.
  intros H. induction n; cbn [prepeat]; [apply w_ret; reflexivity|].
  eapply w_bind; [exact H|]. intros a. eapply w_bind; [exact IHn|]. intros l. apply w_ret.
  unfold counted. cbn [map list_sum fold_right]. unfold list_sum. lia.
Qed.
Lemma w_while {A} (size : A -> nat) (p : parser A) : within (fun a => S (size a)) p -> within (counted size) (while_remaining p).
Proof.
  intros H. unfold while_remaining. intros bs. generalize (length bs) at 1. intros fuel. revert bs.
  change (within (counted size) (pwhile fuel p)). induction fuel; intros bs a rest; destruct bs as [|b bs]; cbn [pwhile].
  - intros E. injection E as <- <-. cbn. lia.
  - discriminate.
  - intros E. injection E as <- <-. cbn. lia.
  - generalize (b :: bs). clear b bs. intros bs. revert bs a rest.
    match goal with |- forall bs a rest, ?q bs = _ -> _ => change (within (counted size) q) end.
    eapply w_bind; [exact H|]. intros a. eapply w_bind; [exact IHfuel|]. intros l. apply w_ret.
    unfold counted. cbn [map list_sum fold_right]. unfold list_sum. lia.
Qed.

(** ** Messages *)
Lemma w_lei_u64 : within (fun _ => 1) read_lei_u64. Proof. unfold read_lei_u64. sizes. Qed.
Lemma w_les_bytes : within (fun s => S (length s)) read_les_bytes.
Proof. unfold read_les_bytes. sizes. Qed.
Lemma w_les_string : within (fun s => S (length s)) read_les_string.
Proof.
  unfold read_les_string. eapply w_bind; [apply w_les|]. intros s. apply w_lift_end. intros a H. facts. lia.
Qed.
Lemma w_status n : within nothing (status_from_bits n). Proof. unfold status_from_bits. sizes. Qed.
#[local] Hint Resolve w_lei_u64 w_les_bytes w_les_string w_status : sizes.
Lemma w_packet : within packet_size read_packet. Proof. unfold read_packet, packet_size. sizes. Qed.
Lemma w_ok cap : within ok_size (read_ok_packet cap). Proof. unfold read_ok_packet, ok_size. sizes. Qed.
Lemma w_err cap sql : within err_size (read_err_packet cap sql). Proof. unfold read_err_packet, err_size. sizes. Qed.
Lemma w_eof cap : within (fun _ => 1) (read_eof_packet cap). Proof. unfold read_eof_packet. sizes. Qed.
Lemma w_handshake : within handshake_size read_initial_handshake. Proof. unfold read_initial_handshake, handshake_size. sizes. Qed.
Lemma w_switch : within switch_size read_auth_switch. Proof. unfold read_auth_switch, switch_size. sizes. Qed.
Lemma w_more : within more_size read_auth_more. Proof. unfold read_auth_more, more_size. sizes. Qed.
Lemma w_column_def fl : within column_def_size (read_column_def fl).
Proof. unfold read_column_def, column_def_size. sizes. Qed.
(** a column definition takes bytes of its own, so a list of them is counted *)
Lemma w_column_def1 fl : within (fun d => S (column_def_size d)) (read_column_def fl).
Proof. unfold read_column_def, column_def_size. sizes. Qed.
Lemma w_nonempty {A} (w : A -> nat) (p : byte -> parser A) e :
  (forall b, within w (p b)) -> within w (fun bs => match bs with [] => (Err e, bs) | b :: _ => p b bs end).
Proof. intros H [|b bs] a rest E; [discriminate|]. exact (H b _ _ _ E). Qed.
Ltac dispatch :=
  match goal with |- within ?w (fun bs => match bs with [] => (Err ?e, _) | b :: _ => @?q b bs end) =>
    apply (w_nonempty w q e) end; intros b;
  match goal with |- within ?w (fun bs => ?p bs) => change (within w p) end;
  repeat match goal with |- within _ (if ?c then _ else _) => destruct c end; try apply w_fail;
  (eapply w_pmap; [solve [apply w_ok|apply w_err|apply w_eof|apply w_switch|apply w_more|apply w_column_def]|]); intros; cbn; lia.
Lemma w_handshake_message cap : within handshake_message_size (read_handshake_message cap).
Proof. unfold read_handshake_message. dispatch. Qed.
Lemma w_response cap : within response_size (read_com_response cap).
Proof. unfold read_com_response. dispatch. Qed.
Lemma w_field_list cap sql : within field_list_size (read_field_list_response cap sql).
Proof. unfold read_field_list_response. dispatch. Qed.
Lemma w_change_user cap : within change_user_size (read_change_user_response cap).
Proof. unfold read_change_user_response. dispatch. Qed.
Lemma w_prepare_defs n : within (counted column_def_size) (read_prepare_defs n).
Proof. apply w_repeat, w_column_def1. Qed.

(** ** Column values *)
Lemma w_text_value : within (fun o => S (opt_size o)) read_text_value. Proof. unfold read_text_value. sizes. Qed.
Lemma w_text_row n : within (counted opt_size) (read_text_row n).
Proof. unfold read_text_row. apply w_lift. intros ? ?. apply w_repeat, w_text_value. Qed.
Lemma w_les_value wrap : (forall s, value_size (wrap s) <= length s) -> within value_size (read_les_value wrap).
Proof. intros H. unfold read_les_value. repeat step1; [reflexivity|]. specialize (H bs). cbn [les_bytes opt_size]. lia. Qed.
Lemma w_any {A} (w : A -> nat) (p : parser A) k : within (fun _ => k) p -> (forall a, w a <= k) -> within w p.
Proof. intros H L. eapply w_le; [exact L|exact H]. Qed.
Lemma w_binary_date : within value_size read_binary_date. Proof. unfold read_binary_date. sizes. Qed.
Lemma w_binary_time : within value_size read_binary_time. Proof. unfold read_binary_time. sizes. Qed.
Lemma w_binary_datetime : within value_size read_binary_datetime. Proof. unfold read_binary_datetime. sizes. Qed.
Lemma w_binary_value ct : within value_size (read_binary_value ct).
Proof.
  destruct ct; cbn [read_binary_value];
    first [apply w_les_value; intros; cbn; lia | apply w_binary_date | apply w_binary_time | apply w_binary_datetime | sizes].
Qed.
Lemma w_binary_cols bits : forall cts i, within (contents value_size) (read_binary_cols cts bits i).
Proof.
  induction cts as [|ct cts IH]; intros i; cbn [read_binary_cols]; [apply w_ret; reflexivity|].
  apply w_lift. intros o _. destruct o as [null|]; [|apply w_ret; reflexivity].
  destruct null; [apply w_ret_bind|eapply w_bind; [apply w_binary_value|intros v]];
    (eapply w_bind; [apply IH|]; intros vs; apply w_ret; unfold contents, list_sum; cbn; lia).
Qed.
Lemma w_binary_row cts : within (fun r => S (contents value_size r)) (read_binary_row cts).
Proof.
  unfold read_binary_row. eapply w_bind; [apply w_u8|]. intros h. cbv zeta. eapply w_bind; [apply w_len|]. intros bm.
  eapply w_le; [|apply w_binary_cols]. intros. cbv beta. lia.
Qed.
(** the columns of a row are at most those announced, and one bit of the map each *)
Lemma binary_cols_count bits : forall cts i bs l rest, read_binary_cols cts bits i bs = (Ok l, rest) -> length l <= length cts.
Proof.
  induction cts as [|ct cts IH]; intros i bs l rest; cbn [read_binary_cols].
  - intros E. injection E as <- _. cbn. lia.
  - unfold pbind at 1, plift. destruct (bm_next bits i) as [o| | |]; try discriminate. destruct o as [null|].
    + unfold pbind. destruct ((if null then pret BNull else read_binary_value ct) bs) as [[v| | |] r1]; try discriminate.
      destruct (read_binary_cols cts bits (S i) r1) as [[vs| | |] r2] eqn:E2; try discriminate.
      intros E. injection E as <- _. apply IH in E2. cbn [length]. lia.
    + intros E. injection E as <- _. cbn. lia.
Qed.
Lemma w_len_eq {B} (w : B -> nat) n f :
  (forall s, N.of_nat (length s) = n -> within (fun b => w b - length s) (f s)) -> within w (pbind (read_len n) f).
Proof.
  intros H bs b rest. unfold pbind, read_len. destruct (N.ltb_spec (blen bs) n) as [L|L]; [discriminate|].
  intros E. unfold blen in L. apply H in E; [|rewrite firstn_length; lia]. cbv beta in E.
  rewrite skipn_length, firstn_length in E. lia.
Qed.
Lemma binary_row_cells cts bs l rest : read_binary_row cts bs = (Ok l, rest) -> length l <= 8 * length bs.
Proof.
  unfold read_binary_row, pbind. destruct (read_u8 bs) as [[h| | |] r1] eqn:E1; try discriminate. cbv zeta.
  unfold read_len. destruct (N.ltb_spec (blen r1) (N.shiftr (N.of_nat (length cts) + 7 + 2) 3)) as [L|L]; [discriminate|].
  intros E. apply binary_cols_count in E. apply w_u8 in E1. rewrite N.shiftr_div_pow2 in L. change (2 ^ 3)%N with 8%N in L. unfold blen in L.
  pose proof (N.div_mod (N.of_nat (length cts) + 7 + 2) 8 ltac:(discriminate)).
  pose proof (N.mod_lt (N.of_nat (length cts) + 7 + 2) 8 ltac:(discriminate)). lia.
Qed.

Lemma w_extra_fragment b len neg : within (fun _ => 1) (read_extra_fragment b len neg).
Proof. unfold read_extra_fragment. sizes. Qed.
Lemma w_fragment neg : within (fun _ => 4) (read_fragment neg). Proof. unfold read_fragment. sizes. Qed.
#[local] Hint Resolve w_extra_fragment w_fragment : sizes.
Lemma counted_nothing {A} (l : list A) : counted nothing l = length l.
Proof. induction l as [|a l IH]; [reflexivity|]. unfold counted in *. cbn [map list_sum fold_right length]. unfold list_sum in IH. rewrite IH. reflexivity. Qed.
Lemma w_fragments neg n : within (@length N) (prepeat n (read_fragment neg)).
Proof.
  eapply w_le; [intros a; rewrite <- counted_nothing; apply Nat.le_refl|]. apply w_repeat.
  eapply w_le; [|apply w_fragment]. intros. unfold nothing. lia.
Qed.
#[local] Hint Resolve w_fragments : sizes.
Lemma w_decimal intg frac : within (fun d => length (d_buf d)) (read_decimal intg frac).
Proof.
  unfold read_decimal. cbv zeta. apply w_lift. intros il _. apply w_lift. intros fl _.
  intros bs d rest. destruct bs as [|b bs]; [intros E; injection E as <- <-; cbn; lia|].
  generalize (negb (N.land (b2n b) 128 =? 128)%N). intros neg. generalize (b :: bs). clear b bs. intros bs. revert bs d rest.
  match goal with |- forall bs d rest, ?q bs = _ -> _ => change (within (fun d => length (d_buf d)) q) end.
  repeat step1; cbn [d_buf]; rewrite ?app_length; cbn [length]; lia.
Qed.
Lemma w_packed_time frac : within (fun _ => 3) (packed_from_time_binary frac).
Proof. unfold packed_from_time_binary. sizes. Qed.
Lemma w_time frac : within (fun _ => 3) (time_from_binlog frac).
Proof. unfold time_from_binlog. eapply w_bind; [apply w_packed_time|]. intros [p n]. apply w_ret. reflexivity. Qed.
Lemma w_packed_datetime frac : within (fun _ => 5) (packed_from_datetime_binary frac).
Proof. unfold packed_from_datetime_binary. repeat step1; try lia; (apply w_lift_end; intros; lia). Qed.
Lemma w_datetime frac : within (fun _ => 5) (datetime_from_binlog frac).
Proof. unfold datetime_from_binlog. eapply w_bind; [apply w_packed_datetime|]. intros p. cbv zeta. sizes. Qed.
#[local] Hint Resolve w_decimal w_time w_datetime : sizes.
Lemma w_log_value m : within log_value_size (read_binlog_value m).
Proof. destruct m; cbn [read_binlog_value]; sizes. Qed.
Lemma w_log_cols bm metas : forall n i, within (contents log_value_size) (read_log_cols n i bm metas).
Proof.
  induction n as [|n IH]; intros i; cbn [read_log_cols]; [apply w_ret; reflexivity|].
  apply w_lift. intros present _. destruct present; [destruct (nth_error metas i)|].
  - eapply w_bind; [apply w_log_value|]. intros v. eapply w_bind; [apply IH|]. intros vs. apply w_ret. unfold contents, list_sum. cbn. lia.
  - apply w_panic_bind.
  - apply w_ret_bind. eapply w_bind; [apply IH|]. intros vs. apply w_ret. unfold contents, list_sum. cbn. lia.
Qed.

(** ** The bodies of the events *)
Lemma w_start : within (fun d => length (st_server_version d)) read_start_data.
Proof. unfold read_start_data. sizes. Qed.
#[local] Hint Resolve w_start : sizes.
Lemma w_bget i : within (@nothing byte) (fun bs => (bget bs i, bs)).
Proof. intros bs a rest E. injection E as _ <-. unfold nothing. lia. Qed.
#[local] Hint Resolve w_bget : sizes.
Lemma w_fde : within fde_size read_fde. Proof. unfold read_fde, fde_size. sizes. Qed.
Lemma w_incident : within (fun i => length (in_msg i)) read_incident. Proof. unfold read_incident. sizes. Qed.
Lemma w_rotate : within (fun r => length (snd r)) read_rotate. Proof. unfold read_rotate. sizes. Qed.
Lemma w_user_var : within user_var_size read_user_var. Proof. unfold read_user_var, user_var_size. sizes. Qed.
Lemma w_user_var_value : within (fun v => length (uvv_value v)) read_user_var_value. Proof. unfold read_user_var_value. sizes. Qed.
Lemma w_load_names a b c :
  within (fun '(x, y, z, t, u) => length x + length y + length z + length t + length u) (read_load_names a b c).
Proof. unfold read_load_names. sizes. Qed.
#[local] Hint Resolve w_load_names : sizes.
Lemma w_load : within load_size read_load. Proof. unfold read_load, load_size. sizes. Qed.
Lemma w_new_load : within new_load_size read_new_load. Proof. unfold read_new_load, new_load_size. sizes. Qed.
Lemma w_create_file : within (fun r => length (snd r)) read_create_file. Proof. unfold read_create_file. sizes. Qed.
Lemma w_append_block : within (fun r => length (snd r)) read_append_block. Proof. unfold read_append_block. sizes. Qed.
Lemma w_begin_load : within (fun r => length (snd r)) read_begin_load_query. Proof. unfold read_begin_load_query. sizes. Qed.
Lemma w_execute_load : within (fun r => length (elq_payload r)) read_execute_load_query. Proof. unfold read_execute_load_query. sizes. Qed.
Lemma w_query : within query_size read_query_data. Proof. unfold read_query_data, query_size. sizes. Qed.
Lemma w_names n : within (counted (@length byte)) (prepeat n (read_until x00 false)).
Proof. apply w_repeat. apply (w_until x00 false). Qed.
#[local] Hint Resolve w_names : sizes.
Lemma w_status_var : within (fun v => S (status_var_size v)) read_status_var.
Proof. unfold read_status_var. repeat step1; cbn [status_var_size]; lia. Qed.
Lemma w_status_vars : within (counted status_var_size) read_status_vars.
Proof. apply w_while, w_status_var. Qed.
Lemma w_gtid_intervals : forall n last, within (@length (N * N)) (read_gtid_intervals n last).
Proof.
  induction n as [|n IH]; intros last; cbn [read_gtid_intervals]; [apply w_ret; reflexivity|].
  eapply w_bind; [apply w_le_u64|]. intros s. eapply w_bind; [apply w_le_u64|]. intros e.
  destruct (_ || _); [apply w_fail|]. eapply w_bind; [apply IH|]. intros l. apply w_ret. cbn [length]. lia.
Qed.
Lemma w_gtid_range : within (fun r => S (gtid_range_size r)) read_gtid_range.
Proof.
  unfold read_gtid_range. eapply w_bind; [apply w_le_u128|]. intros sid. eapply w_bind; [apply w_le_u64|]. intros n.
  apply w_lift. intros ? ?. eapply w_bind; [apply w_gtid_intervals|]. intros l. apply w_ret. unfold gtid_range_size.
  rewrite counted_nothing. cbn [gr_intervals]. lia.
Qed.
Lemma filter_counted {A} (w : A -> nat) f l : counted w (filter f l) <= counted w l.
Proof.
  induction l as [|a l IH]; [cbn; lia|]. cbn [filter]. unfold counted in *. destruct (f a); cbn [map list_sum fold_right];
  unfold list_sum in *; lia.
Qed.
Lemma counted_app {A} (w : A -> nat) l1 l2 : counted w (l1 ++ l2) = counted w l1 + counted w l2.
Proof. unfold counted. rewrite map_app. apply list_sum_app. Qed.
Lemma insert_size m r : gtid_set_size (map_insert m (gr_sid r) r) <= gtid_set_size m + S (gtid_range_size r).
Proof.
  unfold map_insert, gtid_set_size. rewrite counted_app.
  pose proof (filter_counted (fun e => gtid_range_size (snd e)) (fun e => negb (fst e =? gr_sid r)%N) m).
  unfold counted at 2. cbn [map list_sum fold_right snd]. lia.
Qed.
Lemma fold_insert_size l : forall m,
  gtid_set_size (fold_left (fun m r => map_insert m (gr_sid r) r) l m) <= gtid_set_size m + counted gtid_range_size l.
Proof.
  induction l as [|r l IH]; intros m; cbn [fold_left]; [lia|]. specialize (IH (map_insert m (gr_sid r) r)).
  pose proof (insert_size m r). unfold counted in *. cbn [map list_sum fold_right]. unfold list_sum in *. lia.
Qed.
Lemma w_gtid_set : within gtid_set_size read_gtid_set.
Proof.
  unfold read_gtid_set. eapply w_bind; [apply w_le_u64|]. intros n. apply w_lift. intros ? ?.
  eapply w_bind; [apply w_repeat, w_gtid_range|]. intros l. apply w_ret. pose proof (fold_insert_size l []) as Hs.
  change (gtid_set_size []) with 0 in Hs. lia.
Qed.
Lemma w_raw_table_map : within raw_table_map_size read_raw_table_map.
Proof. unfold read_raw_table_map, raw_table_map_size. sizes. Qed.
Lemma metas_count col_defs : forall n i bs l rest, read_column_metas_loop n i col_defs bs = (Ok l, rest) -> length l = n /\ (n = 0 \/ i + n <= length col_defs).
Proof.
  induction n as [|n IH]; intros i bs l rest; cbn [read_column_metas_loop].
  - intros E. injection E as <- _. split; [reflexivity|left; reflexivity].
  - unfold pbind, plift. unfold bget. destruct (nth_error col_defs i) as [b|] eqn:B; [|discriminate].
    destruct (column_type_of (b2n b)) as [ct| | |]; try discriminate.
    destruct (read_column_meta ct bs) as [[m| | |] r1]; try discriminate.
    destruct (read_column_metas_loop n (S i) col_defs r1) as [[ms| | |] r2] eqn:E2; try discriminate.
    intros E. injection E as <- _. apply IH in E2. assert (i < length col_defs) by (apply nth_error_Some; congruence).
    cbn [length]. lia.
Qed.
Lemma table_map_within d t : table_map_of d = Ok t -> table_map_size t <= length (tmd_payload d).
Proof.
  unfold table_map_of. destruct (read_raw_table_map (tmd_payload d)) as [[raw| | |] rest] eqn:E; try discriminate.
  apply w_raw_table_map in E. cbn [fst rbind]. unfold table_map_of_raw.
  destruct (from_utf8 (rtm_schema_name raw)) as [s| | |] eqn:E1; try discriminate.
  destruct (from_utf8 (rtm_table_name raw)) as [n| | |] eqn:E2; try discriminate. cbn [rbind].
  unfold read_column_metas, pbind, plift. destruct (with_capacity 4 (rtm_col_cnt raw)); try discriminate.
  destruct (read_column_metas_loop (N.to_nat (rtm_col_cnt raw)) 0 (rtm_col_defs raw) (rtm_col_meta_defs raw)) as [[ms| | |] r1] eqn:E3; try discriminate.
  cbn [fst rbind]. intros H. injection H as <-. apply metas_count in E3. facts. unfold table_map_size, raw_table_map_size in *.
  rewrite counted_nothing. cbn [tm_schema_name tm_table_name tm_col_metas tm_null_bitmap]. lia.
Qed.

(** ** The requests of a replica *)
Lemma w_command : within (fun _ => 1) read_command. Proof. unfold read_command. sizes. Qed.
#[local] Hint Resolve w_command : sizes.
Lemma w_dump : within dump_size read_binlog_dump. Proof. unfold read_binlog_dump, dump_size. sizes. Qed.
Lemma w_pair : within (fun _ => 1) (start <- read_le_i64 ;; end_ <- read_le_i64 ;; pret (start, end_)).
Proof. sizes. Qed.
Lemma w_sid_range : within (fun s => S (sid_range_size s)) read_sid_range.
Proof.
  unfold read_sid_range. eapply w_bind; [apply w_le_u128|]. intros sid. eapply w_bind; [apply w_le_u64|]. intros n.
  apply w_lift. intros ? ?. eapply w_bind; [apply (w_repeat nothing); apply w_pair|]. intros l. apply w_ret. unfold sid_range_size.
  cbn [sid_intervals]. lia.
Qed.
Lemma w_sid_data : within (counted sid_range_size) read_sid_data.
Proof.
  unfold read_sid_data. eapply w_bind; [apply w_le_u64|]. intros n. apply w_lift. intros ? ?.
  eapply w_le; [|apply w_repeat, w_sid_range]. intros. cbv beta. lia.
Qed.
Lemma inner_sid_data s l : fst (read_sid_data s) = Ok l -> counted sid_range_size l <= length s.
Proof. destruct (read_sid_data s) as [r rest] eqn:E. cbn [fst]. intros ->. apply w_sid_data in E. lia. Qed.
Lemma w_dump_gtid : within dump_gtid_size read_binlog_dump_gtid.
Proof.
  unfold read_binlog_dump_gtid, dump_gtid_size. repeat step1. cbn [bg_filename bg_sids].
  match goal with H : fst (read_sid_data _) = _ |- _ => apply inner_sid_data in H end. lia.
Qed.
