(** Proofs about COM_STMT_EXECUTE *)
From Verif Require Import Model.Base Model.BytesParser Model.LenEnc Model.Bitmap Model.Utf8 Model.Cmd Model.Time Model.Col Model.Stmt
  Spec.Nums Spec.Codec Spec.LenEncSpec Spec.Wire Spec.BitmapSpec Spec.Packets Spec.Commands Spec.Values Spec.Execute
  Proofs.BaseLemmas Proofs.BytesParserProofs Proofs.CodecProofs Proofs.LenEncProofs Proofs.BitmapProofs
  Proofs.WireLemmas Proofs.CmdProofs Proofs.ValueProofs.
Open Scope N_scope.

Lemma d_sle k z rest : (0 < k)%nat -> in_int (8 * Z.of_nat k) z ->
  dsle k (to_le_bytes k (to_unsigned (8 * N.of_nat k) z) ++ rest) = Some (z, rest).
Proof.
  intros Hk Hz. unfold in_int in Hz. unfold dsle. rewrite <- wle_to_le.
  pose proof (to_unsigned_bound (8 * N.of_nat k) z) as Hb.
  rewrite (dbind_some _ _ _ _ _ (d_le k _ rest Hb)). unfold dret. do 2 f_equal.
  unfold to_unsigned in *. rewrite pow256.
  assert (E : (2 ^ Z.of_N (8 * N.of_nat k) = 2 * 2 ^ (8 * Z.of_nat k - 1))%Z).
  { replace (Z.of_N (8 * N.of_nat k)) with (Z.succ (8 * Z.of_nat k - 1)) by lia. apply Z.pow_succ_r. lia. }
  assert (E2 : Z.of_N (2 ^ (8 * N.of_nat k)) = (2 * 2 ^ (8 * Z.of_nat k - 1))%Z).
  { rewrite N2Z.inj_pow. rewrite <- E. reflexivity. }
  set (h := (2 ^ (8 * Z.of_nat k - 1))%Z) in *.
  assert (0 < h)%Z by (apply Z.pow_pos_nonneg; lia).
  rewrite E in *.
  destruct (Z.ltb_spec z 0).
  - assert (M : (z mod (2 * h) = z + 2 * h)%Z).
    { symmetry. apply (Z.mod_unique_pos z (2 * h) (-1)); lia. }
    rewrite M. destruct (N.ltb_spec (Z.to_N (z + 2 * h) * 2) (2 ^ (8 * N.of_nat k))); [lia|].
    rewrite E2. lia.
  - rewrite Z.mod_small by lia.
    destruct (N.ltb_spec (Z.to_N z * 2) (2 ^ (8 * N.of_nat k))); lia.
Qed.

Lemma d_les s rest : str_ok s -> dlstr (les_write (LesBytes s) ++ rest) = Some (s, rest).
Proof.
  intros H. rewrite (les_write_wlstr _ H). unfold wlstr. rewrite <- app_assoc. apply d_lstr, H.
Qed.

Lemma d_hms_time t rest : time_fields_ok t ->
  dtime (write_binary_time t ++ rest)
  = Some (vtime (t_neg t) (t_days t) (t_hour t) (t_minute t) (t_second t) (t_micro t), rest).
Proof.
  intros (Hd & Hh & Hm & Hs & Hu). destruct t as [neg d h m s us].
  cbn [t_neg t_days t_hour t_minute t_second t_micro] in *. unfold write_binary_time. rewrite !lor_0.
  assert (Hsg : forall b : bool, (if b then 1 else 0) < 2 ^ 8) by (intros []; reflexivity).
  destruct ((d =? 0) && (h =? 0) && (m =? 0) && (s =? 0) && (us =? 0)) eqn:E.
  - rewrite !andb_true_iff, !N.eqb_eq in E. destruct E as ((((-> & ->) & ->) & ->) & ->).
    destruct neg; reflexivity.
  - destruct (N.eqb_spec us 0) as [->|]; wr; unfold dtime; dstep;
      change (8 =? 0) with false; change (12 =? 0) with false; cbv iota; dsteps.
    + destruct neg; reflexivity.
    + change (12 =? 8) with false; change (12 =? 12) with true; cbv iota. dsteps. destruct neg; reflexivity.
Qed.
Lemma d_write_datetime t rest : datetime_fields_ok t ->
  ddatetime (write_binary_datetime t ++ rest)
  = Some (VDateTime (dt_year t) (dt_month t) (dt_day t) (dt_hour t) (dt_minute t) (dt_second t) (dt_micro t), rest).
Proof.
  intros (Hy & Hmo & Hd & Hh & Hm & Hs & Hu). destruct t as [y mo d h m s us].
  cbn [dt_year dt_month dt_day dt_hour dt_minute dt_second dt_micro] in *. unfold write_binary_datetime. rewrite !lor_0.
  destruct ((y =? 0) && (mo =? 0) && (d =? 0) && (h =? 0) && (m =? 0) && (s =? 0) && (us =? 0)) eqn:E.
  - rewrite !andb_true_iff, !N.eqb_eq in E. destruct E as ((((((-> & ->) & ->) & ->) & ->) & ->) & ->). reflexivity.
  - destruct ((h =? 0) && (m =? 0) && (s =? 0) && (us =? 0)) eqn:E2.
    + rewrite !andb_true_iff, !N.eqb_eq in E2. destruct E2 as (((-> & ->) & ->) & ->).
      wr; unfold ddatetime; dstep. change (4 =? 0) with false; cbv iota. dsteps. reflexivity.
    + destruct (N.eqb_spec us 0) as [->|]; wr; unfold ddatetime; dstep.
      * change (7 =? 0) with false; cbv iota. dsteps. change (7 =? 4) with false; cbv iota. dsteps. reflexivity.
      * change (11 =? 0) with false; cbv iota. dsteps. change (11 =? 4) with false; cbv iota. dsteps. 
        change (11 =? 7) with false; change (11 =? 11) with true; cbv iota. dsteps. reflexivity.
Qed.

Definition arg_null (a : arg) : bool := match a with ANull => true | _ => false end.
Lemma to_col_null a : sv_is_null (to_col a) = arg_null a.
Proof. destruct a; reflexivity. Qed.

Lemma trunc_id k n : n < 2 ^ k -> trunc k n = n.
Proof. intros H. unfold trunc. apply N.mod_small. exact H. Qed.

Lemma d_arg a rest : arg_ok a -> arg_null a = false ->
  dvalue (column_type_code (sv_type (to_col a))) (sv_unsigned (to_col a)) (write_binary_value (sv_val (to_col a)) ++ rest)
  = Some (arg_value a, rest).
Proof.
  intros H Hn.
  assert (DS : forall k z, (0 < k)%nat -> in_int (8 * Z.of_nat k) z ->
    dint k false (to_le_bytes k (to_unsigned (8 * N.of_nat k) z) ++ rest) = Some (VInt z, rest)).
  { intros k z Hk Hz. unfold dint. rewrite (dbind_some _ _ _ _ _ (d_sle k z rest Hk Hz)). reflexivity. }
  assert (DU : forall k n, n < 2 ^ (8 * N.of_nat k) ->
    dint k true (to_le_bytes k n ++ rest) = Some (VInt (Z.of_N n), rest)).
  { intros k n Hk. unfold dint. rewrite <- wle_to_le. rewrite (dbind_some _ _ _ _ _ (d_le k n rest Hk)). reflexivity. }
  assert (DB : forall s, str_ok s -> dbind dlstr (fun s => dret (VBytes s)) (les_write (LesBytes s) ++ rest) = Some (VBytes s, rest)).
  { intros s Hs. rewrite (dbind_some _ _ _ _ _ (d_les s rest Hs)). reflexivity. }
  destruct a; try discriminate.
  - exact (DS 1%nat z ltac:(lia) H).
  - exact (DU 1%nat n H).
  - exact (DS 2%nat z ltac:(lia) H).
  - exact (DU 2%nat n H).
  - exact (DS 4%nat z ltac:(lia) H).
  - exact (DU 4%nat n H).
  - exact (DS 8%nat z ltac:(lia) H).
  - exact (DU 8%nat n H).
  - exact (DB _ H).
  - change (dbind (dle 4) (fun n => dret (VFloat n)) (to_le_bytes 4 bits ++ rest) = Some (VFloat bits, rest)). rewrite <- wle_to_le. rewrite (dbind_some _ _ _ _ _ (d_le 4 bits rest H)). reflexivity.
  - change (dbind (dle 8) (fun n => dret (VDouble n)) (to_le_bytes 8 bits ++ rest) = Some (VDouble bits, rest)). rewrite <- wle_to_le. rewrite (dbind_some _ _ _ _ _ (d_le 8 bits rest H)). reflexivity.
  - destruct H as (Hy & Hm & Hd). cbn [to_col new_date sv_type sv_unsigned sv_val write_binary_value arg_value].
    rewrite !trunc_id by assumption. change (dvalue (column_type_code TDate) false) with ddatetime.
    wr. unfold ddatetime. dstep. change (4 =? 0) with false; cbv iota. dsteps. reflexivity.
  - exact (d_hms_time t rest H).
  - destruct H as ((Hy & Hm & Hd) & Hh & Hmi & Hs & Hu).
    cbn [to_col new_datetime new_mydatetime sv_type sv_unsigned sv_val write_binary_value arg_value].
    change (dvalue (column_type_code TDateTime) false) with ddatetime.
    rewrite (N.mod_small (nt_nano (ndt_time t))) by exact Hu.
    rewrite !trunc_id by (assumption || lia).
    rewrite d_write_datetime; [reflexivity|]. repeat split; cbn; lia.
  - exact (DU 2%nat n H).
  - exact (DB _ H).
  - destruct b; reflexivity.
  - exact (DB _ H).
  - destruct H as (Hda & Hh & Hmi & Hs & Hu).
    cbn [to_col new_time new_mytime sv_type sv_unsigned sv_val write_binary_value arg_value].
    change (dvalue (column_type_code TTime) false) with dtime.
    rewrite (N.mod_small (nt_nano t)) by exact Hu.
    rewrite !trunc_id by lia.
    rewrite d_hms_time; [reflexivity|]. repeat split; cbn; lia.
  - exact (DB _ H).
  - exact (d_write_datetime t rest H).
Qed.

Lemma arg_null_bytes a : arg_null a = true -> write_binary_value (sv_val (to_col a)) = [].
Proof. destruct a; intros H; try discriminate; reflexivity. Qed.
Lemma arg_null_value a : arg_null a = true -> arg_value a = VNull.
Proof. destruct a; intros H; try discriminate; reflexivity. Qed.

Lemma d_values args : forall i bm rest, Forall arg_ok args ->
  (forall j, (j < length args)%nat -> bit bm (j + i) = nth j (map arg_null args) false) ->
  dvalues i (map (fun a => (column_type_code (sv_type (to_col a)), sv_unsigned (to_col a))) args) bm
    (flat_map (fun a => write_binary_value (sv_val (to_col a))) args ++ rest)
  = Some (map arg_value args, rest).
Proof.
  induction args as [|a args IH]; intros i bm rest Hok Hbm; [reflexivity|].
  inversion Hok as [|? ? Ha Hrest]; subst. cbn [map dvalues flat_map].
  pose proof (Hbm 0%nat ltac:(cbn; lia)) as H0. cbn [Nat.add nth map] in H0. rewrite H0.
  assert (IH' : forall rest, dvalues (S i) (map (fun a => (column_type_code (sv_type (to_col a)), sv_unsigned (to_col a))) args) bm
    (flat_map (fun a => write_binary_value (sv_val (to_col a))) args ++ rest) = Some (map arg_value args, rest)).
  { intros r. apply IH; [exact Hrest|]. intros j Hj. rewrite <- plus_n_Sm. apply (Hbm (S j)). cbn; lia. }
  rewrite <- app_assoc.
  destruct (arg_null a) eqn:En.
  - rewrite (arg_null_bytes _ En), (arg_null_value _ En). cbn [app].
    unfold dbind at 1, dret at 1. rewrite (dbind_some _ _ _ _ _ (IH' rest)). reflexivity.
  - rewrite (dbind_some _ _ _ _ _ (d_arg a _ Ha En)). rewrite (dbind_some _ _ _ _ _ (IH' rest)). reflexivity.
Qed.

Lemma execute_request id args : id < 2 ^ 32 -> Forall arg_ok args ->
  server_execute (length args) (write_stmt_execute id (map to_col args))
  = Some (mk_ex id 0 1 (map arg_value args)).
Proof.
  intros Hid Hok. unfold server_execute, write_stmt_execute, dexecute.
  change (write_u8 (command_byte CmdStmtExecute)) with (wle 1 0x17). change (write_u8 0) with (wle 1 0).
  unfold write_le_u32. rewrite <- !wle_to_le.
  rewrite (dbind_some _ _ _ _ _ (d_le 1 0x17 _ eq_refl)). change (0x17 =? 0x17) with true. cbv iota.
  rewrite (dbind_some _ _ _ _ _ (d_le 4 id _ Hid)).
  rewrite (dbind_some _ _ _ _ _ (d_le 1 0 _ eq_refl)). rewrite (dbind_some _ _ _ _ _ (d_le 4 1 _ eq_refl)).
  destruct args as [|a args0]; [reflexivity|].
  set (args := a :: args0) in *.
  assert (L : length args = S (length args0)) by reflexivity.
  cbn [map]. change (to_col a :: map to_col args0) with (map to_col args). rewrite L.
  destruct (bm_from_iter_spec (map sv_is_null (map to_col args)) 0) as (H1 & H2).
  rewrite !map_length, L in H1. change (0 / 8 + 1)%nat with 1%nat in H1. cbn [Nat.add] in H1.
  replace (Nat.max 1 (S (length args0 + 7) / 8)) with ((S (length args0) + 7) / 8)%nat in H1.
  2: { pose proof (Nat.div_le_mono 8 (S (length args0) + 7) 8 ltac:(lia) ltac:(lia)) as H.
       change (8 / 8)%nat with 1%nat in H. cbn [Nat.add] in *. lia. }
  match goal with |- context[match map to_col args with [] => [] | _ :: _ => ?X end] =>
    change (match map to_col args with [] => [] | _ :: _ => X end) with X end.
  rewrite (dbind_some _ _ _ _ _ (d_bytes _ _ _ (eq_sym H1))).
  change (write_u8 1) with (wle 1 1). rewrite (dbind_some _ _ _ _ _ (d_le 1 1 _ eq_refl)). change (1 =? 1) with true. cbv iota.
  assert (T : forall r, dlist (S (length args0)) (c <-- dle 1 ;; f <-- dle 1 ;; dret (c, 0x80 <=? f))
     (flat_map (fun p => write_u8 (column_type_code (sv_type p)) ++ write_u8 (if sv_unsigned p then 0x80 else 0)) (map to_col args) ++ r)
     = Some (map (fun p => (column_type_code (sv_type p), sv_unsigned p)) (map to_col args), r)).
  { intros r. rewrite <- L. rewrite <- (map_length to_col args). apply dlist_app.
    intros p r' _. rewrite !wu8, <- app_assoc. 
    rewrite (dbind_some _ _ _ _ _ (d_le 1 _ _ (column_type_code_lt _))).
    rewrite (dbind_some (dle 1) _ _ (if sv_unsigned p then 0x80 else 0) r').
    2: { destruct (sv_unsigned p); reflexivity. }
    destruct (sv_unsigned p); reflexivity. }
  rewrite (dbind_some _ _ _ _ _ (T _)). rewrite map_map.
  rewrite (dbind_some (dvalues _ _ _) _ _ (map arg_value args) []).
  - reflexivity.
  - assert (F : forall l, flat_map (fun p => write_binary_value (sv_val p)) (map to_col l)
        = flat_map (fun a => write_binary_value (sv_val (to_col a))) l ++ []).
    { intros l. rewrite app_nil_r. induction l as [|x l IHl]; [reflexivity|]. cbn [map flat_map]. rewrite IHl. reflexivity. }
    rewrite F. apply d_values; [exact Hok|].
    intros j Hj. rewrite H2. destruct (Nat.ltb_spec (j + 0) 0); [lia|].
    rewrite map_map. replace (j + 0 - 0)%nat with j by lia. f_equal. apply map_ext. apply to_col_null.
Qed.

Lemma new_timestamp_value (t : naive_datetime) rest : date_fields_ok (ndt_date t) -> clock_ok (ndt_time t) ->
  dvalue (column_type_code (sv_type (new_timestamp t))) (sv_unsigned (new_timestamp t))
    (write_binary_value (sv_val (new_timestamp t)) ++ rest)
  = Some (VDateTime (nd_year (ndt_date t)) (nd_month (ndt_date t)) (nd_day (ndt_date t))
      (nt_hour (ndt_time t)) (nt_minute (ndt_time t)) (nt_second (ndt_time t)) 0, rest).
Proof.
  intros (Hy & Hm & Hd) (Hh & Hmi & Hs & Hu). cbn [new_timestamp sv_type sv_unsigned sv_val write_binary_value].
  change (dvalue (column_type_code TTimestamp) false) with ddatetime.
  rewrite !trunc_id by (assumption || lia). wr. unfold ddatetime. dstep.
  change (7 =? 0) with false; cbv iota. dsteps. change (7 =? 4) with false; cbv iota. dsteps. reflexivity.
Qed.

(** a string argument of 251 bytes *)
Lemma string_251_request id s : id < 2 ^ 32 -> blen s = 251 ->
  server_execute 1 (write_stmt_execute id [to_col (AString s)]) = None.
Proof.
  intros Hid Hs. unfold server_execute, write_stmt_execute, dexecute.
  change (write_u8 (command_byte CmdStmtExecute)) with (wle 1 0x17). change (write_u8 0) with (wle 1 0).
  unfold write_le_u32. rewrite <- !wle_to_le.
  rewrite (dbind_some _ _ _ _ _ (d_le 1 0x17 _ eq_refl)). change (0x17 =? 0x17) with true. cbv iota.
  rewrite (dbind_some _ _ _ _ _ (d_le 4 id _ Hid)).
  rewrite (dbind_some _ _ _ _ _ (d_le 1 0 _ eq_refl)). rewrite (dbind_some _ _ _ _ _ (d_le 4 1 _ eq_refl)).
  cbn [to_col new_varstring map flat_map sv_is_null sv_type sv_unsigned sv_val write_binary_value les_write].
  rewrite Hs, lei_write_251. reflexivity.
Qed.
