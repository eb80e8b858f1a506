(** Proofs about sequences of COM_STMT_EXECUTE *)
From Coq Require Import Lia.
From Verif Require Import Model.Base Model.BytesParser Model.LenEnc Model.Bitmap Model.Utf8 Model.Cmd Model.Time Model.Col Model.Stmt Model.Execute
  Spec.Nums Spec.Codec Spec.LenEncSpec Spec.Wire Spec.BitmapSpec Spec.Packets Spec.Commands Spec.Values Spec.Execute Spec.ExecuteMany
  Proofs.BaseLemmas Proofs.BytesParserProofs Proofs.CodecProofs Proofs.LenEncProofs Proofs.BitmapProofs
  Proofs.WireLemmas Proofs.CmdProofs Proofs.ValueProofs Proofs.ExecuteProofs.
Open Scope N_scope.

Lemma single_same id params : write_com_stmt_execute (cse_single id params) = write_stmt_execute id params.
Proof. destruct params; reflexivity. Qed.

Lemma d_values_known args : forall ts i bm rest, Forall arg_ok args -> Forall2 keeps ts args ->
  (forall j, (j < length args)%nat -> bit bm (j + i) = nth j (map arg_null args) false) ->
  dvalues i ts bm (flat_map (fun a => write_binary_value (sv_val (to_col a))) args ++ rest) = Some (map arg_value args, rest).
Proof.
  induction args as [|a args IH]; intros ts i bm rest Hok Hk Hbm; inversion Hk as [|t ? ts' ? Ht Hts]; subst; [reflexivity|].
  inversion Hok as [|? ? Ha Hrest]; subst. destruct t as [code uns]. cbn [map dvalues flat_map].
  pose proof (Hbm 0%nat ltac:(cbn; lia)) as H0. cbn [Nat.add nth map] in H0. rewrite H0.
  assert (IH' : forall rest, dvalues (S i) ts' bm (flat_map (fun a => write_binary_value (sv_val (to_col a))) args ++ rest)
      = Some (map arg_value args, rest)).
  { intros r. apply IH; [exact Hrest|exact Hts|]. intros j Hj. rewrite <- plus_n_Sm. apply (Hbm (S j)). cbn; lia. }
  rewrite <- app_assoc.
  destruct (arg_null a) eqn:En.
  - rewrite (arg_null_bytes _ En), (arg_null_value _ En). cbn [app].
    unfold dbind at 1, dret at 1. rewrite (dbind_some _ _ _ _ _ (IH' rest)). reflexivity.
  - destruct Ht as [-> |Ht]; [discriminate|]. injection Ht as -> ->.
    rewrite (dbind_some _ _ _ _ _ (d_arg a _ Ha En)). rewrite (dbind_some _ _ _ _ _ (IH' rest)). reflexivity.
Qed.
Lemma keeps_own args : Forall2 keeps (map arg_type args) args.
Proof. induction args; constructor; [right; reflexivity|assumption]. Qed.

Lemma reads_one s x : x_id x < 2 ^ 32 -> x_flags x < 2 ^ 8 -> p_params s (x_id x) = Some (length (x_args x)) -> Forall arg_ok (x_args x) ->
  (x_bind x = true \/ x_args x = [] \/ exists ts, p_types s (x_id x) = Some ts /\ Forall2 keeps ts (x_args x)) ->
  exists rest, dexecution s (x_message x) = Some ((x_meaning x,
    if x_bind x then match x_args x with [] => s | _ => remember s (x_id x) (map arg_type (x_args x)) end else s), rest).
Proof.
  destruct x as [id flags iter null bind args]. cbn [x_id x_flags x_args x_bind x_message x_meaning x_iter x_null].
  intros Hid Hf Hp Hok Hk. unfold dexecution, x_message, x_meaning, write_com_stmt_execute. cbn [x_id x_flags x_args x_bind x_iter x_null].
  cbn [cse_cmd cse_stmt_id cse_flags cse_iter_cnt cse_null_bitmap cse_new_params_bound cse_params].
  change (write_u8 (command_byte CmdStmtExecute)) with (wle 1 0x17). rewrite (wu8 flags).
  unfold write_le_u32. rewrite <- !wle_to_le.
  rewrite (dbind_some _ _ _ _ _ (d_le 1 0x17 _ eq_refl)). change (0x17 =? 0x17) with true. cbv iota.
  rewrite (dbind_some _ _ _ _ _ (d_le 4 id _ Hid)).
  rewrite (dbind_some _ _ _ _ _ (d_le 1 flags _ Hf)). rewrite (dbind_some _ _ _ _ _ (d_le 4 1 _ eq_refl)). rewrite Hp.
  destruct args as [|a args0]; [exists []; destruct bind; reflexivity|].
  set (args := a :: args0) in *.
  assert (L : length args = S (length args0)) by reflexivity.
  cbn [map]. change (to_col a :: map to_col args0) with (map to_col args). rewrite L.
  destruct (bm_from_iter_spec (map sv_is_null (map to_col args)) 0) as (H1 & H2).
  rewrite !map_length, L in H1. change (0 / 8 + 1)%nat with 1%nat in H1. cbn [Nat.add] in H1.
  replace (Nat.max 1 (S (length args0 + 7) / 8)) with ((S (length args0) + 7) / 8)%nat in H1.
  2: { pose proof (Nat.div_le_mono 8 (S (length args0) + 7) 8 ltac:(lia) ltac:(lia)) as H.
       change (8 / 8)%nat with 1%nat in H. cbn [Nat.add] in *. lia. }
  change (match map to_col args with
            | [] => []
            | s0 :: l => bm_from_iter (sv_is_null s0 :: map sv_is_null l) 0 ++ write_u8 (if bind then 1 else 0) ++
                (if bind then flat_map (fun p => write_u8 (column_type_code (sv_type p)) ++ write_u8 (if sv_unsigned p then 128 else 0)) (s0 :: l) else []) ++
                flat_map (fun p => write_binary_value (sv_val p)) (s0 :: l)
            end)
      with (bm_from_iter (map sv_is_null (map to_col args)) 0 ++ write_u8 (if bind then 1 else 0) ++
                (if bind then flat_map (fun p => write_u8 (column_type_code (sv_type p)) ++ write_u8 (if sv_unsigned p then 128 else 0)) (map to_col args) else []) ++
                flat_map (fun p => write_binary_value (sv_val p)) (map to_col args)).
  rewrite (dbind_some _ _ _ _ _ (d_bytes _ _ _ (eq_sym H1))).
  assert (F : forall l, flat_map (fun p => write_binary_value (sv_val p)) (map to_col l)
      = flat_map (fun a => write_binary_value (sv_val (to_col a))) l ++ []).
  { intros l. rewrite app_nil_r. induction l as [|x l IHl]; [reflexivity|]. cbn [map flat_map]. rewrite IHl. reflexivity. }
  assert (B : forall j, (j < length args)%nat -> bit (bm_from_iter (map sv_is_null (map to_col args)) 0) (j + 0) = nth j (map arg_null args) false).
  { intros j Hj. rewrite H2. destruct (Nat.ltb_spec (j + 0) 0); [lia|].
    rewrite map_map. replace (j + 0 - 0)%nat with j by lia. f_equal. apply map_ext. apply to_col_null. }
  destruct bind.
  - change (write_u8 1) with (wle 1 1). rewrite (dbind_some _ _ _ _ _ (d_le 1 1 _ eq_refl)). change (1 =? 1) with true. cbv iota.
    assert (T : forall r, dlist (S (length args0)) (c <-- dle 1 ;; f <-- dle 1 ;; dret (c, 0x80 <=? f))
       (flat_map (fun p => write_u8 (column_type_code (sv_type p)) ++ write_u8 (if sv_unsigned p then 0x80 else 0)) (map to_col args) ++ r)
       = Some (map (fun p => (column_type_code (sv_type p), sv_unsigned p)) (map to_col args), r)).
    { intros r. rewrite <- L. rewrite <- (map_length to_col args). apply dlist_app.
      intros p r' _. rewrite !wu8, <- app_assoc.
      rewrite (dbind_some _ _ _ _ _ (d_le 1 _ _ (column_type_code_lt _))).
      rewrite (dbind_some (dle 1) _ _ (if sv_unsigned p then 0x80 else 0) r').
      2: { destruct (sv_unsigned p); reflexivity. }
      destruct (sv_unsigned p); reflexivity. }
    rewrite (dbind_some _ _ _ _ _ (T _)). rewrite map_map. change (map (fun a => (column_type_code (sv_type (to_col a)), sv_unsigned (to_col a))) args)
      with (map arg_type args).
    rewrite F. rewrite (dbind_some _ _ _ _ _ (d_values_known args (map arg_type args) 0 _ [] Hok (keeps_own args) B)).
    exists []. reflexivity.
  - change (write_u8 0) with (wle 1 0). rewrite (dbind_some _ _ _ _ _ (d_le 1 0 _ eq_refl)). change (0 =? 1) with false. cbv iota.
    destruct Hk as [Hk|[Hk|(ts & E & Hk)]]; try discriminate. rewrite E. cbn [app]. rewrite F.
    rewrite (dbind_some _ _ _ _ _ (d_values_known args ts 0 _ [] Hok Hk B)).
    exists []. reflexivity.
Qed.

(** the types a server knows after some executions *)
Definition types_after (s : prepared) (x : execution) : prepared :=
  if x_bind x then match x_args x with [] => s | _ => remember s (x_id x) (map arg_type (x_args x)) end else s.
Lemma types_after_params s x : p_params (types_after s x) = p_params s.
Proof. unfold types_after. destruct (x_bind x); [|reflexivity]. destruct (x_args x); reflexivity. Qed.
Lemma fold_params xs : forall s, p_params (fold_left types_after xs s) = p_params s.
Proof. induction xs as [|x xs IH]; intros s; [reflexivity|]. cbn. rewrite IH. apply types_after_params. Qed.
Lemma fold_types later id : forall s, (forall y, In y later -> x_id y = id -> x_bind y = false) ->
  p_types (fold_left types_after later s) id = p_types s id.
Proof.
  induction later as [|y later IH]; intros s H; [reflexivity|]. cbn [fold_left]. rewrite IH by (intros z Hz; apply H; right; exact Hz).
  unfold types_after. destruct (x_bind y) eqn:B; [|reflexivity]. destruct (x_args y); [reflexivity|]. cbn [remember p_types].
  destruct (N.eqb_spec id (x_id y)) as [E|E]; [|reflexivity]. rewrite (H y (or_introl eq_refl) (eq_sym E)) in B. discriminate.
Qed.
Lemma last_sent_known before id ts s : last_sent before id ts -> p_types (fold_left types_after before s) id = Some ts.
Proof.
  intros (b & x & later & -> & Ei & B & A & -> & H). rewrite fold_left_app. cbn [fold_left]. rewrite fold_types by exact H.
  unfold types_after at 1. rewrite B. destruct (x_args x) as [|a l] eqn:E; [contradiction|]. cbn [remember p_types]. rewrite Ei, N.eqb_refl. reflexivity.
Qed.
Lemma many params xs : by_the_rules params xs ->
  server_reads (fresh_server params) (map x_message xs) = map (fun x => Some (x_meaning x)) xs.
Proof.
  intros H.
  assert (G : forall after before, xs = before ++ after ->
    server_reads (fold_left types_after before (fresh_server params)) (map x_message after) = map (fun x => Some (x_meaning x)) after).
  { induction after as [|x after IH]; intros before E; [reflexivity|]. destruct (H _ _ _ E) as (H1 & H2 & H3 & H4 & H5).
    destruct (reads_one (fold_left types_after before (fresh_server params)) x H1 H2) as [rest R]; [rewrite fold_params; exact H3|exact H4| |].
    - destruct H5 as [B|[B|(ts & T & K)]]; auto. right; right. exists ts. split; [apply last_sent_known; exact T|exact K].
    - cbn [map server_reads]. rewrite R. f_equal. fold (types_after (fold_left types_after before (fresh_server params)) x).
      rewrite <- (IH (before ++ [x])) by (rewrite <- app_assoc; exact E). rewrite fold_left_app. reflexivity. }
  exact (G xs [] eq_refl).
Qed.

Lemma untyped_one s id flags iter null a ts : id < 2 ^ 32 -> flags < 2 ^ 8 -> p_params s id = Some 1%nat -> p_types s id = Some [(6, ts)] ->
  arg_null a = false -> dexecution s (x_message (mk_x id flags iter null false [a])) = None.
Proof.
  intros Hid Hf Hp Ht Ha. unfold dexecution, x_message, write_com_stmt_execute.
  cbn [x_id x_flags x_args x_bind x_iter x_null cse_cmd cse_stmt_id cse_flags cse_iter_cnt cse_null_bitmap cse_new_params_bound cse_params map].
  change (write_u8 (command_byte CmdStmtExecute)) with (wle 1 0x17). rewrite (wu8 flags).
  unfold write_le_u32. rewrite <- !wle_to_le.
  rewrite (dbind_some _ _ _ _ _ (d_le 1 0x17 _ eq_refl)). change (0x17 =? 0x17) with true. cbv iota.
  rewrite (dbind_some _ _ _ _ _ (d_le 4 id _ Hid)).
  rewrite (dbind_some _ _ _ _ _ (d_le 1 flags _ Hf)). rewrite (dbind_some _ _ _ _ _ (d_le 4 1 _ eq_refl)). rewrite Hp, Ht.
  rewrite to_col_null, Ha. change (bm_from_iter [false] 0) with [x00]. change ((1 + 7) / 8)%nat with 1%nat.
  rewrite (dbind_some _ _ _ _ _ (d_bytes [x00] _ 1%nat eq_refl)).
  change (write_u8 0) with (wle 1 0). rewrite (dbind_some _ _ _ _ _ (d_le 1 0 _ eq_refl)). change (0 =? 1) with false. cbv iota.
  reflexivity.
Qed.
Lemma null_first params id iter null iter' null' a : params id = Some 1%nat -> id < 2 ^ 32 -> a <> ANull ->
  nth_error (server_reads (fresh_server params) (map x_message [mk_x id 0 iter null true [ANull]; mk_x id 0 iter' null' false [a]])) 1 = Some None.
Proof.
  intros Hp Hid Ha. cbn [map server_reads].
  destruct (reads_one (fresh_server params) (mk_x id 0 iter null true [ANull]) Hid eq_refl Hp (Forall_cons ANull I (Forall_nil _)) (or_introl eq_refl)) as [rest R].
  rewrite R. cbn [nth_error x_bind x_args x_id].
  rewrite (untyped_one _ id 0 iter' null' a false Hid eq_refl).
  - reflexivity.
  - exact Hp.
  - cbn [remember p_types]. rewrite N.eqb_refl. reflexivity.
  - destruct a; try reflexivity. contradiction.
Qed.
