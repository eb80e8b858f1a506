(** * Proofs about commands (C16-C19) *)
From Verif Require Import Model.Base Model.BytesParser Model.LenEnc Model.Utf8 Model.Flags Model.Packet Model.Cmd
  Spec.Nums Spec.Codec Spec.LenEncSpec Spec.Wire Spec.Packets Spec.Commands
  Proofs.BaseLemmas Proofs.BytesParserProofs Proofs.CodecProofs Proofs.LenEncProofs Proofs.WireLemmas Proofs.PacketProofs.
Open Scope N_scope.

(** ** command codes *)
Lemma command_byte_lt c : command_byte c < 256.
Proof. destruct c; reflexivity. Qed.
Lemma command_of_byte c : command_of (n2b (command_byte c)) = Some c.
Proof. destruct c; reflexivity. Qed.
Lemma command_of_inv b c : command_of b = Some c -> b = n2b (command_byte c).
Proof. destruct b; cbn; intros [= <-]; reflexivity. Qed.
Lemma command_of_none b : command_of b = None <-> 32 <= b2n b.
Proof. destruct b; vm_compute; split; intros H; first [reflexivity | discriminate H | (intros X; discriminate X) | (exfalso; apply H; reflexivity)]. Qed.
Lemma command_byte_inj c d : command_byte c = command_byte d -> c = d.
Proof. intros H. pose proof (command_of_byte c) as Hc. rewrite H, command_of_byte in Hc. congruence. Qed.

(** ** server decoding *)
Lemma d_rest s : drest s = Some (s, []).
Proof. reflexivity. Qed.
Lemma d_end : dend [] = Some (tt, []).
Proof. reflexivity. Qed.
Lemma no_app_d {A} (d : dec A) s a : d (s ++ []) = Some (a, []) -> d s = Some (a, []).
Proof. rewrite app_nil_r. auto. Qed.
Lemma d_str1 s rest : blen s < 256 -> dstr1 (n2b (blen s) :: s ++ rest) = Some (s, rest).
Proof.
  intros H. unfold dstr1. rewrite (dbind_some _ _ _ _ _ (d_le1 _ _ H)). apply d_bytes.
  unfold blen. apply Nat2N.id.
Qed.
#[export] Hint Resolve d_rest d_end d_str1 : dd.

Ltac dstep' := first [dstep | eapply eq_trans; [eapply dbind_some; apply no_app_d; solve [eauto 3 with dd nocore]|]; cbv beta iota zeta].

Lemma request_of cap code args r :
  code < 256 -> darguments cap code args = Some (r, []) -> server_request cap (n2b code :: args) = Some r.
Proof.
  intros Hc H. unfold server_request. rewrite (dbind_some _ _ _ _ _ (d_le1 _ _ Hc)).
  rewrite (dbind_some _ _ _ _ _ H). reflexivity.
Qed.

Ltac request := unfold write_u8, write_bytes, write_le_u16, write_le_u32, write_le_u64; rewrite <- ?wle_to_le;
  cbn [app command_byte]; apply request_of; [reflexivity|]; cbn [darguments];
  repeat dstep'; try reflexivity.

Section Simple.
  Variable cap : N.
  Lemma sr_quit : server_request cap write_quit = Some RqQuit. Proof. reflexivity. Qed.
  Lemma sr_query s : server_request cap (write_query s) = Some (RqQuery s). Proof. request. Qed.
  Lemma sr_init_db s : server_request cap (write_init_db s) = Some (RqInitDb s). Proof. request. Qed.
  Lemma sr_create_db s : server_request cap (write_create_db s) = Some (RqCreateDb s). Proof. request. Qed.
  Lemma sr_drop_db s : server_request cap (write_drop_db s) = Some (RqDropDb s). Proof. request. Qed.
  Lemma sr_stmt_prepare s : server_request cap (write_stmt_prepare s) = Some (RqStmtPrepare s). Proof. request. Qed.
  Lemma sr_field_list t w : no_nul t -> server_request cap (write_field_list t w) = Some (RqFieldList t w).
  Proof. intros. unfold write_field_list. request. Qed.
  Lemma sr_refresh f : f < 2 ^ 8 -> server_request cap (write_refresh f) = Some (RqRefresh f).
  Proof. intros. unfold write_refresh. request. Qed.
  Lemma sr_process_kill f : f < 2 ^ 32 -> server_request cap (write_process_kill f) = Some (RqProcessKill f).
  Proof. intros. unfold write_process_kill. request. Qed.
  Lemma sr_stmt_close f : f < 2 ^ 32 -> server_request cap (write_stmt_close f) = Some (RqStmtClose f).
  Proof. intros. unfold write_stmt_close. request. Qed.
  Lemma sr_stmt_reset f : f < 2 ^ 32 -> server_request cap (write_stmt_reset f) = Some (RqStmtReset f).
  Proof. intros. unfold write_stmt_reset. request. Qed.
  Lemma sr_stmt_fetch f n : f < 2 ^ 32 -> n < 2 ^ 32 -> server_request cap (write_stmt_fetch f n) = Some (RqStmtFetch f n).
  Proof. intros. unfold write_stmt_fetch. request. Qed.
  Lemma sr_set_option b : server_request cap (write_set_option b) = Some (RqSetOption (negb b)).
  Proof. destruct b; reflexivity. Qed.
  Lemma sr_statistics : server_request cap write_statistics = Some RqStatistics. Proof. reflexivity. Qed.
  Lemma sr_process_info : server_request cap write_process_info = Some RqProcessInfo. Proof. reflexivity. Qed.
  Lemma sr_debug : server_request cap write_debug = Some RqDebug. Proof. reflexivity. Qed.
  Lemma sr_ping : server_request cap write_ping = Some RqPing. Proof. reflexivity. Qed.
  Lemma sr_reset_connection : server_request cap write_reset_connection = Some RqResetConnection. Proof. reflexivity. Qed.

  Lemma str8_app s rest : write_str8 s ++ rest =
    let k := trunc 8 (blen s) in n2b k :: firstn (N.to_nat k) s ++ rest.
  Proof. reflexivity. Qed.
  Lemma d_str8 s rest :
    dstr1 (write_str8 s ++ rest) = Some (firstn (N.to_nat (blen s mod 256)) s, rest).
  Proof.
    unfold write_str8, dstr1, trunc. change (2 ^ 8) with 256. cbv zeta. unfold write_u8. cbn [app].
    assert (H : blen s mod 256 < 256) by lia.
    rewrite (dbind_some _ _ _ _ _ (d_le1 _ _ H)). apply d_bytes.
    rewrite firstn_length. unfold blen. lia.
  Qed.

  Lemma cut256_short s : N.of_nat (length s) < 256 -> cut256 s = s.
  Proof. intros H. unfold cut256. rewrite N.mod_small by exact H. rewrite Nat2N.id. apply firstn_all. Qed.

  Lemma sr_register_slave_cut id h u p port rank master :
    id < 2 ^ 32 -> port < 2 ^ 16 -> rank < 2 ^ 32 -> master < 2 ^ 32 ->
    server_request cap (write_register_slave (mk_rs id h u p port rank master))
    = Some (RqRegisterSlave id (cut256 h) (cut256 u) (cut256 p) port rank master).
  Proof.
    intros. unfold write_register_slave. cbn [rs_server_id rs_host rs_user rs_password rs_port rs_rank rs_master_id].
    unfold write_u8, write_le_u32, write_le_u16. rewrite <- !wle_to_le. cbn [app command_byte].
    apply request_of; [reflexivity|]. cbn [darguments].
    dstep'. do 3 (eapply eq_trans; [eapply dbind_some; apply d_str8|]; cbv beta iota zeta).
    repeat dstep'. reflexivity.
  Qed.
End Simple.

(** ** table dump *)
Lemma sr_table_dump cap db t : N.of_nat (length db) < 256 -> N.of_nat (length t) < 256 ->
  server_request cap (write_table_dump db t) = Some (RqTableDump db t).
Proof.
  intros Hd Ht. unfold write_table_dump, trunc. change (N.of_nat (length db)) with (blen db) in Hd.
  change (N.of_nat (length t)) with (blen t) in Ht. rewrite !N.mod_small by assumption. request.
Qed.

Lemma dbytes_length j : forall m a rest, dbytes j m = Some (a, rest) -> length a = j.
Proof.
  induction j; intros m a rest E.
  - cbn in E. destruct m; injection E as <- _; reflexivity.
  - destruct m as [|b m]; [discriminate|]. cbn in E. destruct (dbytes j m) as [[x y]|] eqn:E2; [|discriminate].
    injection E as <- _. cbn. f_equal. eapply IHj. exact E2.
Qed.

(** an over-long database name: the server sees something else or fails *)
Lemma sr_table_dump_long cap db t : 256 <= N.of_nat (length db) ->
  server_request cap (write_table_dump db t) <> Some (RqTableDump db t).
Proof.
  intros H Hs.
  unfold write_table_dump, server_request, write_u8 in Hs. cbn [app] in Hs.
  rewrite (dbind_some _ _ _ _ _ (d_le1 _ _ (command_byte_lt CmdTableDump))) in Hs.
  cbn [command_byte darguments] in Hs.
  set (m := write_bytes db ++ _) in Hs.
  set (k := trunc 8 (blen db)) in Hs. assert (Hk : k < 256) by (unfold k, trunc; lia).
  assert (F : forall a rest, dstr1 (n2b k :: m) = Some (a, rest) -> length a = N.to_nat k).
  { intros a rest E. unfold dstr1 in E. rewrite (dbind_some _ _ _ _ _ (d_le1 _ _ Hk)) in E.
    apply dbytes_length in E. exact E. }
  unfold dbind in Hs. destruct (dstr1 (n2b k :: m)) as [[a rest]|] eqn:E; [|discriminate].
  pose proof (F _ _ eq_refl) as E'. destruct (dstr1 rest) as [[b rest2]|]; [|discriminate].
  cbn in Hs. destruct rest2; [|discriminate]. cbn in Hs. injection Hs as -> _. lia.
Qed.

(** ** change user *)
Lemma flat_attrs l :
  flat_map (fun a => les_write (LesBytes (at_key a)) ++ les_write (LesBytes (at_value a))) l = attrs_bytes l.
Proof.
  induction l as [|a l IH]; [reflexivity|]. unfold attrs_bytes in *. cbn [flat_map]. rewrite IH.
  cbn [les_write]. rewrite <- !app_assoc. reflexivity.
Qed.

Lemma sr_change_user cap c : no_nul (cu_user c) -> no_nul (cu_schema c) -> no_nul (cu_plugin c) ->
  cu_charset c < 2 ^ 16 ->
  (if cap_secure_connection cap then N.of_nat (length (cu_auth c)) < 256 else no_nul (cu_auth c)) ->
  Forall attr_ok (cu_attrs c) -> str_ok (attrs_wire (cu_attrs c)) ->
  server_request cap (write_change_user cap c)
  = Some (RqChangeUser (cu_user c) (cu_auth c) (cu_schema c) (cu_charset c)
      (if cap_plugin_auth cap then Some (cu_plugin c) else None)
      (if cap_connect_attrs cap then Some (map (fun a => (at_key a, at_value a)) (cu_attrs c)) else None)).
Proof.
  intros Hu Hs Hp Hc Ha Hat [Hb1 Hb2].
  rewrite <- attrs_bytes_wire in Hb1, Hb2 by assumption.
  unfold write_change_user. rewrite contains_secure, contains_plugin, contains_attrs, flat_attrs.
  cbn [les_write]. fold (blen (attrs_bytes (cu_attrs c))) in *. rewrite lei_write_wlenenc by assumption.
  unfold write_u8, write_bytes, write_le_u16. rewrite <- wle_to_le. cbn [app command_byte].
  apply request_of; [reflexivity|]. cbn [darguments]. unfold dchange_user. change (n2b 0) with x00.
  dstep.
  assert (Hauth : forall (k : bytes -> dec request) rest,
    dbind (if cap_secure_connection cap then dstr1 else dcstr) k
      ((if cap_secure_connection cap then n2b (trunc 8 (blen (cu_auth c))) :: cu_auth c else cu_auth c ++ [x00]) ++ rest)
    = k (cu_auth c) rest).
  { intros k rest. destruct (cap_secure_connection cap).
    - unfold trunc. rewrite N.mod_small by exact Ha. eapply dbind_some. apply d_str1. exact Ha.
    - rewrite <- app_assoc. eapply dbind_some. apply d_cstr. exact Ha. }
  rewrite Hauth. dstep. dstep.
  rewrite dopt_step with (a := cu_plugin c) by (intros _; rewrite <- app_assoc; apply d_cstr; assumption).
  rewrite <- (app_nil_r (if cap_connect_attrs _ then _ else _)).
  rewrite dopt_step with (a := map (fun a => (at_key a, at_value a)) (cu_attrs c)).
  - reflexivity.
  - intros _. unfold dattrs. rewrite <- app_assoc.
    rewrite (dbind_some _ _ _ _ _ (d_lstr _ _ Hb1)). rewrite dpairs_attrs by auto. reflexivity.
Qed.

(** ** binlog dump *)
Lemma rd_command c rest : read_command (n2b (command_byte c) :: rest) = (Ok c, rest).
Proof. unfold read_command, pbind, read_byte. rewrite command_of_byte. reflexivity. Qed.
#[export] Hint Resolve rd_command : rd.

Lemma from_utf8_valid s : utf8_valid s = true -> from_utf8 s = Ok s.
Proof. unfold from_utf8. intros ->. reflexivity. Qed.

Lemma dump_round_trip d : bd_pos d < 2 ^ 32 -> bd_flags d < 2 ^ 16 -> bd_server_id d < 2 ^ 32 ->
  utf8_valid (bd_filename d) = true -> read_binlog_dump (write_binlog_dump d) = (Ok d, []).
Proof.
  intros H1 H2 H3 H4. unfold write_binlog_dump, read_binlog_dump, write_u8, write_le_u32, write_le_u16, write_bytes.
  rewrite <- !wle_to_le. cbn [app]. rsteps.
  unfold pbind, plift. rewrite from_utf8_valid by exact H4. destruct d; reflexivity.
Qed.
Lemma dump_request cap d : bd_cmd d = CmdBinlogDump -> bd_pos d < 2 ^ 32 -> bd_flags d < 2 ^ 16 -> bd_server_id d < 2 ^ 32 ->
  server_request cap (write_binlog_dump d)
  = Some (RqBinlogDump (bd_pos d) (bd_flags d) (bd_server_id d) (bd_filename d)).
Proof. intros E H1 H2 H3. unfold write_binlog_dump. rewrite E. request. Qed.

(** ** GTID binlog dump *)
Lemma rd_i64 z rest : i64 z -> read_le_i64 (write_le_i64 z ++ rest) = (Ok z, rest).
Proof. intros H. destruct signed_le_codecs as (_ & _ & _ & _ & _ & (Hc & _) & _).
  apply (Hc z rest). exact H. Qed.

Lemma rd_wu128 n rest : n < 2 ^ 128 -> read_le_u128 (write_le_u128 n ++ rest) = (Ok n, rest).
Proof. intros H. unfold write_le_u128. rewrite <- wle_to_le. apply rd_u128. exact H. Qed.
Lemma rd_wu64 n rest : n < 2 ^ 64 -> read_le_u64 (write_le_u64 n ++ rest) = (Ok n, rest).
Proof. intros H. unfold write_le_u64. rewrite <- wle_to_le. apply rd_u64. exact H. Qed.
#[export] Hint Resolve rd_i64 rd_wu128 rd_wu64 : rd.

Lemma prepeat_app {A} (p : parser A) (w : A -> bytes) l rest :
  (forall a r, In a l -> p (w a ++ r) = (Ok a, r)) ->
  prepeat (length l) p (flat_map w l ++ rest) = (Ok l, rest).
Proof.
  induction l as [|a l IH]; intros H; [reflexivity|]. cbn [length prepeat flat_map]. rewrite <- app_assoc.
  erewrite pbind_ok by (apply H; left; reflexivity). erewrite pbind_ok by (apply IH; intros; apply H; right; assumption).
  reflexivity.
Qed.

Definition interval_ok : Z * Z -> Prop := fun '(s, e) => i64 s /\ i64 e.

Lemma rd_interval iv rest : interval_ok iv ->
  (start <- read_le_i64 ;; end_ <- read_le_i64 ;; pret (start, end_))
    ((let '(start, end_) := iv in write_le_i64 start ++ write_le_i64 end_) ++ rest) = (Ok iv, rest).
Proof. destruct iv as [s e]. intros [Hs He]. rewrite <- app_assoc. rsteps. reflexivity. Qed.

Lemma rd_sid_range s rest : sid_id s < 2 ^ 128 -> Forall interval_ok (sid_intervals s) ->
  N.of_nat (length (sid_intervals s)) < 2 ^ 59 ->
  read_sid_range (write_sid_range s ++ rest) = (Ok s, rest).
Proof.
  intros H1 H2 H3. unfold read_sid_range, write_sid_range. rewrite <- !app_assoc.
  assert (Ht : trunc 64 (N.of_nat (length (sid_intervals s))) = N.of_nat (length (sid_intervals s))).
  { unfold trunc. apply N.mod_small. change (2 ^ 59) with 576460752303423488 in H3. change (2 ^ 64) with 18446744073709551616. lia. }
  rewrite Ht.
  eapply eq_trans; [eapply pbind_ok; apply rd_wu128; exact H1|].
  eapply eq_trans; [eapply pbind_ok; apply rd_wu64|].
  { change (2 ^ 59) with 576460752303423488 in H3. change (2 ^ 64) with 18446744073709551616. lia. }
  eapply eq_trans; [eapply pbind_ok; unfold plift, with_capacity|].
  { destruct (N.leb_spec (2 ^ 63) (16 * N.of_nat (length (sid_intervals s)))); [|reflexivity].
    exfalso. change (2 ^ 59) with 576460752303423488 in H3. change (2 ^ 63) with 9223372036854775808 in H. lia. }
  rewrite Nat2N.id.
  eapply eq_trans; [eapply pbind_ok; apply prepeat_app|].
  { intros iv r Hin. apply rd_interval. rewrite Forall_forall in H2. apply H2. exact Hin. }
  destruct s; reflexivity.
Qed.

Definition sid_ok (s : sid_range) : Prop :=
  sid_id s < 2 ^ 128 /\ Forall interval_ok (sid_intervals s) /\ N.of_nat (length (sid_intervals s)) < 2 ^ 59.

Lemma rd_sid_data l : Forall sid_ok l -> N.of_nat (length l) < 2 ^ 57 ->
  read_sid_data (write_sid_data l) = (Ok l, []).
Proof.
  intros H1 H2. unfold read_sid_data, write_sid_data.
  change (2 ^ 57) with 144115188075855872 in H2.
  assert (Ht : trunc 64 (N.of_nat (length l)) = N.of_nat (length l)).
  { unfold trunc. apply N.mod_small. change (2 ^ 64) with 18446744073709551616. lia. }
  rewrite Ht. eapply eq_trans; [eapply pbind_ok; apply rd_wu64|].
  { change (2 ^ 64) with 18446744073709551616. lia. }
  eapply eq_trans; [eapply pbind_ok; unfold plift, with_capacity|].
  { destruct (N.leb_spec (2 ^ 63) (40 * N.of_nat (length l))); [|reflexivity].
    exfalso. change (2 ^ 63) with 9223372036854775808 in H. lia. }
  rewrite Nat2N.id, <- (app_nil_r (flat_map _ _)). apply prepeat_app.
  intros s r Hin. rewrite Forall_forall in H1. destruct (H1 s Hin) as (A & B & C). apply rd_sid_range; assumption.
Qed.

Lemma write_sid_range_length s : blen (write_sid_range s) = sid_bytes_len s.
Proof.
  unfold write_sid_range, sid_bytes_len. rewrite !blen_app.
  assert (E : blen (flat_map (fun '(start, end_) => write_le_i64 start ++ write_le_i64 end_) (sid_intervals s))
              = 16 * N.of_nat (length (sid_intervals s))).
  { induction (sid_intervals s) as [|[a b] l IH]; [reflexivity|]. cbn [flat_map length]. rewrite blen_app, IH.
    unfold blen, write_le_i64. rewrite app_length, !to_le_bytes_length. lia. }
  rewrite E. unfold blen, write_le_u128, write_le_u64. rewrite !to_le_bytes_length. lia.
Qed.
Lemma write_sid_data_length l : blen (write_sid_data l) = sid_data_bytes_len l.
Proof.
  unfold write_sid_data, sid_data_bytes_len. rewrite blen_app.
  assert (E : blen (flat_map write_sid_range l) = fold_right (fun s acc => sid_bytes_len s + acc) 0 l).
  { induction l as [|s l IH]; [reflexivity|]. cbn [flat_map fold_right]. rewrite blen_app, IH, write_sid_range_length. reflexivity. }
  rewrite E. unfold blen, write_le_u64. rewrite !to_le_bytes_length. lia.
Qed.
Lemma gtid_set_size_len l : gtid_set_size (gtids l) = sid_data_bytes_len l.
Proof.
  unfold sid_data_bytes_len. induction l as [|s l IH]; [reflexivity|]. cbn [gtids map gtid_set_size fold_right].
  fold (gtids l). rewrite IH. unfold sid_bytes_len. lia.
Qed.
(** a set fitting in 4 GiB has representable parts *)
Lemma gtid_set_parts l : gtid_set_ok (gtids l) -> gtid_set_size (gtids l) < 2 ^ 32 ->
  Forall sid_ok l /\ N.of_nat (length l) < 2 ^ 57.
Proof.
  change (2 ^ 57) with 144115188075855872. change (2 ^ 32) with 4294967296. intros H1 H2.
  assert (T : Forall sid_ok l /\ N.of_nat (length l) <= gtid_set_size (gtids l)).
  { induction l as [|s l IH]; [split; [constructor|cbn; lia]|].
    cbn [gtids map gtid_set_size] in *. fold (gtids l) in *. inversion H1 as [|x y Hx Hy]; subst.
    destruct IH as [A B]; [exact Hy|lia|]. split; [constructor; [|exact A]|cbn [length]; lia].
    destruct Hx as [Hi Hv]. split; [exact Hi|]. split; [exact Hv|]. change (2 ^ 59) with 576460752303423488. lia. }
  destruct T as [A B]. split; [exact A|]. lia.
Qed.

Lemma gtid_flags_ok f : f < 8 -> from_bits all_gtid_flags f = Some f.
Proof.
  intros H. unfold from_bits. change all_gtid_flags with (N.ones 3).
  rewrite N.ldiff_ones_r_low; [reflexivity|]. destruct (N.eq_dec f 0) as [->|]; [reflexivity|].
  apply N.log2_lt_pow2; [lia|exact H].
Qed.

Lemma gtid_round_trip d : bg_flags d < 8 -> bg_server_id d < 2 ^ 32 -> utf8_valid (bg_filename d) = true ->
  N.of_nat (length (bg_filename d)) < 2 ^ 32 -> bg_pos d < 2 ^ 64 ->
  gtid_set_ok (gtids (bg_sids d)) -> gtid_set_size (gtids (bg_sids d)) < 2 ^ 32 ->
  read_binlog_dump_gtid (write_binlog_dump_gtid d) = (Ok d, []).
Proof.
  intros H1 H2 H3 H4 H5 H6 H7.
  destruct (gtid_set_parts _ H6 H7) as [Hs Hl].
  unfold read_binlog_dump_gtid, write_binlog_dump_gtid, write_u8, write_le_u16, write_le_u32, write_bytes.
  rewrite gtid_set_size_len in H7.
  unfold trunc. rewrite (N.mod_small (blen (bg_filename d))) by exact H4.
  rewrite (N.mod_small (sid_data_bytes_len _)) by exact H7.
  rewrite <- !wle_to_le. cbn [app]. rstep. rstep. rewrite gtid_flags_ok by exact H1.
  rsteps.
  eapply eq_trans; [eapply pbind_ok; unfold plift; rewrite from_utf8_valid by exact H3; reflexivity|].
  rstep. rstep.
  rewrite <- write_sid_data_length. rstep.
  unfold pbind, plift. rewrite rd_sid_data by assumption. destruct d; reflexivity.
Qed.

(** the server's reading *)
Lemma d_sle8 z rest : i64 z -> dsle 8 (write_le_i64 z ++ rest) = Some (z, rest).
Proof.
  intros H. unfold dsle, write_le_i64. rewrite <- wle_to_le.
  pose proof (Z.mod_pos_bound z (2 ^ 64) ltac:(lia)) as Hb.
  assert (Hu : Z.of_N (to_unsigned 64 z) = (z mod 2 ^ 64)%Z).
  { unfold to_unsigned. rewrite Z2N.id; [reflexivity|]. apply Z.mod_pos_bound. reflexivity. }
  assert (Hn : to_unsigned 64 z < 2 ^ 64).
  { apply N2Z.inj_lt. rewrite Hu. exact (proj2 Hb). }
  eapply eq_trans; [eapply dbind_some; apply d_le; exact Hn|]. cbv zeta. unfold dret.
  change (256 ^ N.of_nat 8) with (2 ^ 64).
  destruct H as [Ha Hc].
  f_equal. f_equal.
  change (2 ^ 64)%Z with 18446744073709551616%Z in *. change (2 ^ 64) with 18446744073709551616 in *.
  change (2 ^ 63)%Z with 9223372036854775808%Z in *.
  destruct (N.ltb_spec (to_unsigned 64 z * 2) 18446744073709551616); rewrite Hu; lia.
Qed.
Lemma d_wu64 n rest : n < 2 ^ 64 -> dle 8 (write_le_u64 n ++ rest) = Some (n, rest).
Proof. intros H. unfold write_le_u64. rewrite <- wle_to_le. apply d_le. exact H. Qed.
Lemma d_wu128 n rest : n < 2 ^ 128 -> dle 16 (write_le_u128 n ++ rest) = Some (n, rest).
Proof. intros H. unfold write_le_u128. rewrite <- wle_to_le. apply d_le. exact H. Qed.
Lemma dlist_app {A B} (d : dec A) (w : B -> bytes) (f : B -> A) l rest :
  (forall a r, In a l -> d (w a ++ r) = Some (f a, r)) ->
  dlist (length l) d (flat_map w l ++ rest) = Some (map f l, rest).
Proof.
  induction l as [|a l IH]; intros H; [reflexivity|]. cbn [length dlist flat_map map]. rewrite <- app_assoc.
  erewrite dbind_some by (apply H; left; reflexivity). erewrite dbind_some by (apply IH; intros; apply H; right; assumption).
  reflexivity.
Qed.
Lemma d_gtids l : Forall sid_ok l -> N.of_nat (length l) < 2 ^ 57 ->
  dgtids (write_sid_data l) = Some (gtids l, []).
Proof.
  intros H1 H2. unfold dgtids, write_sid_data.
  change (2 ^ 57) with 144115188075855872 in H2.
  assert (Ht : trunc 64 (N.of_nat (length l)) = N.of_nat (length l)).
  { unfold trunc. apply N.mod_small. change (2 ^ 64) with 18446744073709551616. lia. }
  rewrite Ht. eapply eq_trans; [eapply dbind_some; apply d_wu64|].
  { change (2 ^ 64) with 18446744073709551616. lia. }
  rewrite Nat2N.id, <- (app_nil_r (flat_map _ _)). apply dlist_app.
  intros s r Hin. rewrite Forall_forall in H1. destruct (H1 s Hin) as (A & B & C).
  change (2 ^ 59) with 576460752303423488 in C. unfold write_sid_range. rewrite <- !app_assoc.
  eapply eq_trans; [eapply dbind_some; apply d_wu128; exact A|].
  assert (Ht' : trunc 64 (N.of_nat (length (sid_intervals s))) = N.of_nat (length (sid_intervals s))).
  { unfold trunc. apply N.mod_small. change (2 ^ 64) with 18446744073709551616. lia. }
  rewrite Ht'. eapply eq_trans; [eapply dbind_some; apply d_wu64|].
  { change (2 ^ 64) with 18446744073709551616. lia. }
  rewrite Nat2N.id.
  eapply eq_trans; [eapply dbind_some; eapply (dlist_app _ _ (fun x => x))|].
  { intros [x y] r' Hin'. rewrite Forall_forall in B. destruct (B _ Hin') as [Hx Hy]. rewrite <- app_assoc.
    erewrite dbind_some by (apply d_sle8; exact Hx). erewrite dbind_some by (apply d_sle8; exact Hy). reflexivity. }
  rewrite map_id. reflexivity.
Qed.
Lemma d_str4 s rest : blen s < 2 ^ 32 -> dstr4 (wle 4 (blen s) ++ s ++ rest) = Some (s, rest).
Proof.
  intros H. unfold dstr4. rewrite (dbind_some _ _ _ _ _ (d_le 4 _ _ H)). apply d_bytes.
  unfold blen. apply Nat2N.id.
Qed.
#[export] Hint Resolve d_str4 : dd.

Lemma gtid_request cap d : bg_cmd d = CmdBinlogDumpGtid -> bg_flags d < 2 ^ 16 -> bg_server_id d < 2 ^ 32 ->
  N.of_nat (length (bg_filename d)) < 2 ^ 32 -> bg_pos d < 2 ^ 64 ->
  gtid_set_ok (gtids (bg_sids d)) -> gtid_set_size (gtids (bg_sids d)) < 2 ^ 32 ->
  server_request cap (write_binlog_dump_gtid d)
  = Some (RqBinlogDumpGtid (bg_flags d) (bg_server_id d) (bg_filename d) (bg_pos d) (gtids (bg_sids d))).
Proof.
  intros E H1 H2 H4 H5 H6 H7.
  destruct (gtid_set_parts _ H6 H7) as [Hs Hl].
  rewrite gtid_set_size_len in H7.
  unfold write_binlog_dump_gtid, write_u8, write_le_u16, write_le_u32, write_le_u64, write_bytes. rewrite E.
  unfold trunc. rewrite (N.mod_small (blen (bg_filename d))) by exact H4.
  rewrite (N.mod_small (sid_data_bytes_len _)) by exact H7.
  rewrite <- !wle_to_le. cbn [app command_byte]. apply request_of; [reflexivity|]. cbn [darguments].
  dstep. dstep. eapply eq_trans; [eapply dbind_some; apply d_str4; exact H4|]. dstep.
  rewrite <- write_sid_data_length, <- (app_nil_r (_ ++ write_sid_data _)), <- app_assoc.
  eapply eq_trans; [eapply dbind_some; apply d_str4; rewrite write_sid_data_length; exact H7|].
  unfold dbind, dwithin. rewrite d_gtids by assumption. reflexivity.
Qed.

(** ** over-long authentication data *)
Lemma sr_change_user_long cap c : cap_secure_connection cap = true -> no_nul (cu_user c) ->
  256 <= N.of_nat (length (cu_auth c)) ->
  forall user db charset plugin attrs,
  server_request cap (write_change_user cap c) <> Some (RqChangeUser user (cu_auth c) db charset plugin attrs).
Proof.
  intros Hc Hu Ha user db charset plugin attrs Hs.
  unfold write_change_user, server_request, write_u8 in Hs. rewrite contains_secure, Hc in Hs. cbn [app] in Hs.
  rewrite (dbind_some _ _ _ _ _ (d_le1 _ _ (command_byte_lt CmdChangeUser))) in Hs.
  cbn [command_byte darguments] in Hs. unfold dchange_user in Hs. rewrite Hc in Hs.
  change (n2b 0) with x00 in Hs.
  match type of Hs with context [write_bytes (cu_user c) ++ x00 :: ?m] =>
    assert (E : dcstr (write_bytes (cu_user c) ++ x00 :: m) = Some (cu_user c, m)) by (apply d_cstr; exact Hu);
    set (tail := m) in * end.
  assert (F : forall a rest, dstr1 tail = Some (a, rest) -> N.of_nat (length a) < 256).
  { intros a rest E1. unfold tail, dstr1 in E1. cbn [app] in E1.
    assert (Hk : trunc 8 (blen (cu_auth c)) < 256) by (unfold trunc; lia).
    rewrite (dbind_some _ _ _ _ _ (d_le1 _ _ Hk)) in E1. apply dbytes_length in E1. lia. }
  clearbody tail. unfold dbind, dret in Hs. rewrite E in Hs.
  destruct (dstr1 tail) as [[a rest]|]; [|discriminate]. specialize (F _ _ eq_refl).
  repeat match type of Hs with context [match ?d with Some _ => _ | None => None end] =>
    match d with context [match _ with _ => _ end] => fail 1 | _ => destruct d as [[? ?]|]; [|discriminate Hs] end end.
  injection Hs as _ Hx _. subst a. lia.
Qed.

Lemma cut256_long s : 256 <= N.of_nat (length s) -> cut256 s <> s.
Proof.
  intros H E. apply (f_equal (@length byte)) in E. unfold cut256 in E. rewrite firstn_length in E. lia.
Qed.
