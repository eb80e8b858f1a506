(** Proofs about values bound to a statement and read back from a row *)
From Coq Require Import Lia.
From Verif Require Import Model.Base Model.Utf8 Model.Conn Model.Time Model.Col Model.Row Model.Stmt Model.Extract Model.Session
  Spec.Nums Spec.Wire Spec.BitmapSpec Spec.Packets Spec.Values Spec.Framing Spec.Session Spec.Commands Spec.Execute Spec.ExtractSpec
  Spec.ResultSets Spec.Echo Proofs.BaseLemmas Proofs.BytesParserProofs Proofs.CodecProofs Proofs.LenEncProofs Proofs.WireLemmas Proofs.CmdProofs Proofs.ValueProofs Proofs.ExecuteProofs
  Proofs.ExtractProofs Proofs.CommandProofs Proofs.DmlProofs.
Open Scope N_scope.

(** ** what a cell stands for *)
Definition sign_of (k : N) (u : bool) (n : N) : Z := if u then Z.of_N n else to_signed k n.
Definition cell_meaning (u : bool) (b : binary_value) : sql_value :=
  match b with
  | BNull => VNull
  | BTiny n => VInt (sign_of 8 u n)
  | BShort n | BYear n => VInt (sign_of 16 u n)
  | BLong n | BInt24 n => VInt (sign_of 32 u n)
  | BLongLong n => VInt (sign_of 64 u n)
  | BFloat n => VFloat n
  | BDouble n => VDouble n
  | BDate y m d => VDateTime y m d 0 0 0 0
  | BTime t => vtime (t_neg t) (t_days t) (t_hour t) (t_minute t) (t_second t) (t_micro t)
  | BDateTime t | BTimestamp t =>
      VDateTime (dt_year t) (dt_month t) (dt_day t) (dt_hour t) (dt_minute t) (dt_second t) (dt_micro t)
  | BBit s | BNewDecimal s | BBlob s | BVarString s | BString s | BGeometry s => VBytes s
  end.

Lemma dint_wle (k : nat) u n : (0 < k)%nat -> n < 2 ^ (8 * N.of_nat k) ->
  dint k u (wle k n) = Some (VInt (sign_of (8 * N.of_nat k) u n), []).
Proof.
  intros Hk H. rewrite <- (app_nil_r (wle k n)). unfold dint, sign_of. destruct u.
  - rewrite (dbind_some _ _ _ _ _ (d_le k n [] H)). reflexivity.
  - unfold dsle, dbind. rewrite (d_le k n [] H). unfold dret. do 3 f_equal. unfold to_signed. rewrite pow256.
    assert (E : 2 ^ (8 * N.of_nat k) = 2 * 2 ^ (8 * N.of_nat k - 1)).
    { rewrite <- N.pow_succ_r'. f_equal. lia. }
    assert (E2 : Z.of_N (2 ^ (8 * N.of_nat k)) = (2 ^ Z.of_N (8 * N.of_nat k))%Z) by (rewrite N2Z.inj_pow; reflexivity).
    rewrite <- E2.
    destruct (N.ltb_spec (n * 2) (2 ^ (8 * N.of_nat k))), (N.ltb_spec n (2 ^ (8 * N.of_nat k - 1))); lia.
Qed.

Ltac dd1 := dstep; repeat match goal with
  | |- context [?a =? ?b] => let r := eval vm_compute in (a =? b) in
      match r with true => change (a =? b) with true | false => change (a =? b) with false end end; cbv iota.

Lemma cell_reads ct b w u : wire_value ct b w -> dvalue (column_type_code ct) u w <> None ->
  dvalue (column_type_code ct) u w = Some (cell_meaning u b, []).
Proof.
  intros W. inversion W; subst; intros ND.
  - exact (dint_wle 1 u n ltac:(lia) H).
  - exact (dint_wle 2 u n ltac:(lia) H).
  - exact (dint_wle 2 u n ltac:(lia) H).
  - exact (dint_wle 4 u n ltac:(lia) H).
  - exact (dint_wle 4 u n ltac:(lia) H).
  - exact (dint_wle 8 u n ltac:(lia) H).
  - change (dbind (dle 4) (fun n => dret (VFloat n)) (wle 4 n) = Some (VFloat n, [])).
    rewrite <- (app_nil_r (wle 4 n)). rewrite (dbind_some _ _ _ _ _ (d_le 4 n [] H)). reflexivity.
  - change (dbind (dle 8) (fun n => dret (VDouble n)) (wle 8 n) = Some (VDouble n, [])).
    rewrite <- (app_nil_r (wle 8 n)). rewrite (dbind_some _ _ _ _ _ (d_le 8 n [] H)). reflexivity.
  - exfalso. apply ND. reflexivity.
  - assert (D : dbind dlstr (fun s => dret (VBytes s)) (wlstr s) = Some (VBytes s, [])).
    { rewrite <- (app_nil_r (wlstr s)). unfold wlstr. rewrite <- app_assoc.
      rewrite (dbind_some _ _ _ _ _ (d_lstr s [] H0)). reflexivity. }
    destruct ct; cbn [string_kind] in H; try discriminate; injection H as <-; exact D.
  - reflexivity.
  - change (dvalue (column_type_code TDate) u) with ddatetime. rewrite <- (app_nil_r (wle 1 d)).
    unfold ddatetime. repeat dd1. reflexivity.
  - destruct ct; try discriminate; [|exfalso; apply ND; reflexivity]. reflexivity.
  - destruct ct; try discriminate; [|exfalso; apply ND; reflexivity].
    change (dvalue (column_type_code TTime) u) with dtime. rewrite <- (app_nil_r (wle 1 s)).
    unfold dtime. assert (sign_byte neg < 2 ^ 8) by (destruct neg; reflexivity).
    repeat dd1. destruct neg; reflexivity.
  - destruct ct; try discriminate; [|exfalso; apply ND; reflexivity].
    change (dvalue (column_type_code TTime) u) with dtime. rewrite <- (app_nil_r (wle 4 us)).
    unfold dtime. assert (sign_byte neg < 2 ^ 8) by (destruct neg; reflexivity).
    repeat dd1. destruct neg; reflexivity.
  - destruct ct; try discriminate; try (exfalso; apply ND; reflexivity); reflexivity.
  - destruct ct; try discriminate; try (exfalso; apply ND; reflexivity);
      match goal with |- dvalue (column_type_code ?t) u _ = _ => change (dvalue (column_type_code t) u) with ddatetime end;
      rewrite <- (app_nil_r (wle 1 d)); unfold ddatetime; repeat dd1; reflexivity.
  - destruct ct; try discriminate; try (exfalso; apply ND; reflexivity);
      match goal with |- dvalue (column_type_code ?t) u _ = _ => change (dvalue (column_type_code t) u) with ddatetime end;
      rewrite <- (app_nil_r (wle 1 s)); unfold ddatetime; repeat dd1; reflexivity.
  - destruct ct; try discriminate; try (exfalso; apply ND; reflexivity);
      match goal with |- dvalue (column_type_code ?t) u _ = _ => change (dvalue (column_type_code t) u) with ddatetime end;
      rewrite <- (app_nil_r (wle 4 us)); unfold ddatetime; repeat dd1; reflexivity.
Qed.

Lemma vtime_same n d h m s us n' d' h' m' s' us' : vtime n d h m s us = vtime n' d' h' m' s' us' ->
  same_time (mk_time n' d' h' m' s' us') (mk_time n d h m s us).
Proof.
  unfold vtime, same_time. intros H. injection H as H1 -> -> -> -> ->.
  change (zero_time (mk_time n d' h' m' s' us')) with (zero_time (mk_time n' d' h' m' s' us')) in *.
  destruct (zero_time (mk_time n' d' h' m' s' us')); [right; auto|left].
  cbn [negb] in H1. rewrite !andb_true_r in H1. subst. reflexivity.
Qed.
Lemma signed_back k n z : VInt (sign_of k false n) = VInt z -> to_signed k n = z.
Proof. intros H. injection H as H. exact H. Qed.
Lemma unsigned_back k n m : VInt (sign_of k true n) = VInt (Z.of_N m) -> n = m.
Proof. intros H. injection H as H. unfold sign_of in H. lia. Qed.
Lemma small_back k u n m : n < 2 ^ k -> 1 <= k -> VInt (sign_of k u n) = VInt (Z.of_N m) -> n = m.
Proof.
  intros Hn Hk H. destruct u; [exact (unsigned_back _ _ _ H)|]. apply signed_back in H. unfold to_signed in H.
  destruct (N.ltb_spec n (2 ^ (k - 1))); [lia|].
  assert (Z.of_N n < 2 ^ Z.of_N k)%Z; [|lia]. change 2%Z with (Z.of_N 2). rewrite <- N2Z.inj_pow. lia.
Qed.

Ltac kill := try discriminate.
Lemma datetime_back t y m d h mi s us : real_date y m d -> h < 24 -> mi < 60 -> s < 60 -> us < 1000000 ->
  VDateTime (dt_year t) (dt_month t) (dt_day t) (dt_hour t) (dt_minute t) (dt_second t) (dt_micro t) = VDateTime y m d h mi s us ->
  naive_datetime_from_binary (BDateTime t) = Ok (Some (mk_ndt (mk_nd y m d) (mk_nt h mi s (us * 1000)))).
Proof.
  intros R Hh Hm Hs Hu E. destruct t as [y' m' d' h' mi' s' us']. cbn in E. injection E as -> -> -> -> -> -> ->.
  cbn [naive_datetime_from_binary]. unfold naive_of_datetime, from_ymd, and_hms_micro, valid_hms.
  cbn [dt_year dt_month dt_day dt_hour dt_minute dt_second dt_micro].
  rewrite real_date_valid in R. rewrite R. cbn [rbind rmap].
  repeat match goal with |- context [N.ltb ?a ?b] => destruct (N.ltb_spec a b); [|lia] end. reflexivity.
Qed.

Lemma cell_returned a k b w : fits_column a k -> arg_ok a -> rust_ok a -> arg_null a = false ->
  wire_value (fst k) b w -> dvalue (column_type_code (fst k)) (snd k) w = Some (arg_value a, []) -> returned a b.
Proof.
  intros F O R Nn W D. destruct k as [ct u]. cbn [fst snd] in *.
  pose proof (cell_reads ct b w u W ltac:(congruence)) as C. rewrite D in C. injection C as C. symmetry in C.
  destruct a; cbn [arg_null] in Nn; try discriminate; cbn [fits_column fst] in F; cbn [returned];
    cbn [arg_value] in C.
  - injection F as -> ->. inversion W; subst; kill. cbn [cell_meaning i8_from_binary] in *. rewrite (signed_back _ _ _ C). reflexivity.
  - injection F as -> ->. inversion W; subst; kill. cbn [cell_meaning u8_from_binary] in *. rewrite (unsigned_back _ _ _ C). reflexivity.
  - injection F as -> ->. inversion W; subst; kill. cbn [cell_meaning i16_from_binary] in *. rewrite (signed_back _ _ _ C). reflexivity.
  - injection F as -> ->. inversion W; subst; kill. cbn [cell_meaning u16_from_binary] in *. rewrite (unsigned_back _ _ _ C). reflexivity.
  - injection F as -> ->. inversion W; subst; kill. cbn [cell_meaning i32_from_binary] in *. rewrite (signed_back _ _ _ C). reflexivity.
  - injection F as -> ->. inversion W; subst; kill. cbn [cell_meaning u32_from_binary] in *. rewrite (unsigned_back _ _ _ C). reflexivity.
  - injection F as -> ->. inversion W; subst; kill. cbn [cell_meaning i64_from_binary] in *. rewrite (signed_back _ _ _ C). reflexivity.
  - injection F as -> ->. inversion W; subst; kill. cbn [cell_meaning u64_from_binary] in *. rewrite (unsigned_back _ _ _ C). reflexivity.
  - subst ct. inversion W; subst; kill. cbn [string_kind] in H. injection H as <-. cbn in C. injection C as ->.
    intros V parse. cbn [decimal_from_binary]. unfold from_utf8. cbn in R. rewrite R. reflexivity.
  - subst ct. inversion W; subst; kill. injection C as ->. reflexivity.
  - subst ct. inversion W; subst; kill. injection C as ->. reflexivity.
  - subst ct. cbn [rust_ok] in R. unfold real_naive in R. destruct d as [y m d]. cbn [nd_year nd_month nd_day] in *.
    inversion W; subst; kill; cbn [cell_meaning] in C; injection C as E1 E2 E3; subst;
      cbn [date_from_binary]; unfold from_ymd; rewrite real_date_valid in R; rewrite R; reflexivity.
  - subst ct. destruct t as [n d h m s us]. inversion W; subst; kill; eexists; (split; [reflexivity|]);
      exact (vtime_same _ _ _ _ _ _ _ _ _ _ _ _ C).
  - destruct O as ((Hy & Hm & Hd) & Hh & Hmi & Hs & Hu). cbn [rust_ok] in R.
    destruct t as [[y m d] [h mi s ns]]. unfold real_naive in R. cbn [ndt_date ndt_time nd_year nd_month nd_day nt_hour nt_minute nt_second nt_nano] in *.
    destruct F as [-> | ->]; inversion W; subst; kill;
      (apply datetime_back; [assumption|assumption|assumption|assumption|lia|exact C]).
  - subst ct. inversion W; subst; kill. cbn [cell_meaning year_from_binary] in *. rewrite (small_back 16 u n0 n ltac:(assumption) ltac:(lia) C). reflexivity.
  - subst ct. inversion W; subst; kill. cbn [string_kind] in H. injection H as <-. injection C as ->. reflexivity.
  - subst ct. inversion W; subst; kill. cbn [cell_meaning bool_from_binary] in *.
    change (if b0 then 1%Z else 0%Z) with (Z.of_N (if b0 then 1 else 0)) in C || (replace (if b0 then 1%Z else 0%Z) with (Z.of_N (if b0 then 1 else 0)) in C by (destruct b0; reflexivity)).
    rewrite (small_back 8 u n _ ltac:(assumption) ltac:(lia) C). destruct b0; reflexivity.
  - cbn [rust_ok] in R. assert (exists wrap s0, string_kind ct = Some wrap /\ b = wrap s0) as (wrap & s0 & K & ->).
    { cbn in F. decompose [or] F; subst; try contradiction; inversion W; subst; kill; eauto. }
    cbn in F. decompose [or] F; subst; try contradiction; cbn [string_kind] in K; injection K as <-; cbn in C; injection C as ->;
      cbn [string_from_binary]; unfold from_utf8; rewrite R; reflexivity.
  - subst ct. destruct t as [h m s ns]. cbn [nt_hour nt_minute nt_second nt_nano] in *. inversion W; subst; kill; eexists; (split; [reflexivity|]);
      exact (vtime_same _ _ _ _ _ _ _ _ _ _ _ _ C).
  - assert (exists wrap s0, string_kind ct = Some wrap /\ b = wrap s0) as (wrap & s0 & K & ->).
    { cbn in F. decompose [or] F; subst; try contradiction; inversion W; subst; kill; eauto. }
    cbn in F. decompose [or] F; subst; try contradiction; cbn [string_kind] in K; injection K as <-; cbn in C; injection C as ->; reflexivity.
  - destruct R as (R & Hh & Hmi & Hs & Hu). destruct t as [y m d h mi s us].
    cbn [dt_year dt_month dt_day dt_hour dt_minute dt_second dt_micro] in *.
    destruct F as [-> | ->]; inversion W; subst; kill;
      (apply datetime_back; [assumption|assumption|assumption|assumption|assumption|exact C]).
Qed.

Lemma arg_value_null a : arg_value a = VNull -> a = ANull.
Proof. destruct a; intros H; try discriminate; reflexivity. Qed.
Lemma null_cell k w : ~ cell k VNull w.
Proof.
  intros ((b & W) & D). pose proof (cell_reads _ b w (snd k) W ltac:(congruence)) as C. rewrite D in C. injection C as C.
  destruct b; try discriminate. inversion W; subst; try discriminate.
  - rewrite <- H0 in D. discriminate.
  - destruct (fst k); cbn [string_kind] in *; try discriminate;
      match goal with K : Some _ = Some _ |- _ => injection K as K; subst; discriminate end.
Qed.
Lemma cells_returned ks : forall args nulls w, cells ks (map arg_value args) nulls w ->
  Forall2 fits_column args ks -> Forall arg_ok args -> Forall rust_ok args ->
  exists bs, wire_cols (map fst ks) bs nulls w /\ Forall2 returned args bs.
Proof.
  induction ks as [|k ks IH]; intros args nulls w C F O R; inversion F; subst.
  - inversion C; subst. exists []. split; constructor.
  - rename x into a. rename l into args. inversion O; subst. inversion R; subst. cbn [map] in C. inversion C; subst.
    + destruct (IH _ _ _ ltac:(eassumption) ltac:(assumption) ltac:(assumption) ltac:(assumption)) as (bs & Hw & Hr).
      match goal with H : _ = arg_value a |- _ => symmetry in H; apply arg_value_null in H; subst a | H : arg_value a = _ |- _ => apply arg_value_null in H; subst a end. exists (BNull :: bs). split; [constructor; exact Hw|].
      constructor; [reflexivity|exact Hr].
    + destruct (IH _ _ _ ltac:(eassumption) ltac:(assumption) ltac:(assumption) ltac:(assumption)) as (bs & Hw & Hr).
      destruct (arg_null a) eqn:En.
      { exfalso. rewrite (arg_null_value _ En) in *. eapply null_cell; eassumption. }
      match goal with H : cell _ _ _ |- _ => destruct H as ((b & W) & D) end.
      exists (b :: bs). split; [constructor; assumption|]. constructor; [|exact Hr].
      eapply cell_returned; eassumption.
Qed.
Lemma row_returned ks args m : row_of ks (map arg_value args) m ->
  Forall2 fits_column args ks -> Forall arg_ok args -> Forall rust_ok args ->
  exists bs, wire_row (map fst ks) bs m /\ Forall2 returned args bs.
Proof.
  intros (nulls & bm & w & C & B & ->) F O R. destruct (cells_returned _ _ _ _ C F O R) as (bs & Hw & Hr).
  exists bs. split; [|exact Hr]. exists nulls, bm, w. auto.
Qed.

Lemma echoed checks ps args defs hd rowm last c d :
  ps_stmt_id ps < 2 ^ 32 -> Forall arg_ok args -> Forall rust_ok args ->
  sendable checks (write_stmt_execute (ps_stmt_id ps) (map to_col args)) ->
  defs_ok defs -> heading (c_cap c) defs hd -> last_message (c_cap c) last ->
  Forall2 (fun a df => fits_column a (column_of df)) args defs ->
  accepting (c_ws c) -> awaits c (hd ++ [rowm; last]) d ->
  exists rs c1 m vs,
    stmt_qry checks ps (map to_col args) c = (Ok rs, c1) /\ commanded c c1 [m] /\
    server_execute (length args) m = Some (mk_ex (ps_stmt_id ps) 0 1 vs) /\ vs = map arg_value args /\
    (row_of (map column_of defs) vs rowm ->
     exists row, delivers (next_row binary_rows) rs c1 [row] d /\ Forall2 returned args row).
Proof.
  intros Hid O R S DO HD L F A W.
  destruct (awaits_app c hd [rowm; last] d W) as (d1 & W1 & W2).
  destruct (stmt_qry_ok (c_cap c) checks ps args defs hd Hid O S DO HD c d1 eq_refl A W1)
    as (c1 & ms & E & K & RQ & D1 & _ & CC & _).
  inversion RQ as [|? m ? ? E1 E2]; subst. inversion E2; subst.
  exists (rs_new defs (Some (ps_stmt_id ps))), c1, m, (map arg_value args).
  split; [exact E|]. split; [exact K|]. split.
  { unfold executes in E1. rewrite map_length in E1. exact E1. }
  split; [reflexivity|].
  intros RO. destruct (row_returned _ _ _ RO) as (row & WR & RT); [|assumption|assumption|].
  { clear -F. induction F; constructor; auto. }
  exists row. split; [|exact RT].
  refine (proj1 (binary_delivers c1 defs (Some (ps_stmt_id ps)) [row] [rowm] last d DO _ _ (W2 c1 eq_refl))).
  - constructor; [|constructor]. rewrite map_map in WR. exact WR.
  - rewrite CC. exact L.
Qed.

(** ** inserting rows, then selecting them *)
Lemma inserted cap checks ps batch : forall oks, ps_stmt_id ps < 2 ^ 32 -> Forall (Forall arg_ok) batch ->
  Forall (fun args => sendable checks (write_stmt_execute (ps_stmt_id ps) (map to_col args))) batch ->
  Forall2 (fun (args : list arg) m => ok_message cap 0 m) batch oks ->
  conversation cap (insert_all checks ps batch) (map (fun args => executes (ps_stmt_id ps) (map arg_value args)) batch) oks (Ok tt).
Proof.
  induction batch as [|args batch IH]; intros oks Hid O S K c d Hc A W; inversion K; subst.
  - exists c, []. split; [reflexivity|]. split; [exists []; split; [constructor|rewrite app_nil_r; reflexivity]|].
    split; [constructor|]. split; [|auto]. destruct W as (w & Hw & E). inversion Hw; subst. exact E.
  - inversion O; subst. inversion S; subst. cbn [insert_all map].
    destruct (awaits_app c [y] l' d W) as (d1 & W1 & W2).
    destruct (stmt_exec_ok (c_cap c) checks ps args [] y Hid ltac:(assumption) ltac:(assumption) ltac:(constructor)
                ltac:(assumption) c d1 eq_refl A W1) as (c1 & m1 & E1 & C1 & R1 & D1 & A1 & P1 & S1).
    destruct (IH l' Hid ltac:(assumption) ltac:(assumption) ltac:(assumption) c1 d P1 A1 (W2 c1 D1))
      as (c2 & m2 & E2 & C2 & R2 & D2 & A2 & P2 & S2).
    exists c2, (m1 ++ m2). unfold ibind. rewrite E1. split; [exact E2|]. split; [eapply commanded_trans; eassumption|].
    split; [|repeat split; congruence || assumption].
    change (executes (ps_stmt_id ps) (map arg_value args) :: map (fun args => executes (ps_stmt_id ps) (map arg_value args)) batch)
      with ([executes (ps_stmt_id ps) (map arg_value args)] ++ map (fun args => executes (ps_stmt_id ps) (map arg_value args)) batch).
    apply Forall2_app; assumption.
Qed.
Lemma rows_returned ks batch ms : Forall2 (row_of ks) (map (map arg_value) batch) ms ->
  Forall (fun args => Forall2 fits_column args ks) batch -> Forall (Forall arg_ok) batch -> Forall (Forall rust_ok) batch ->
  exists rows, Forall2 (wire_row (map fst ks)) rows ms /\ Forall2 (Forall2 returned) batch rows.
Proof.
  revert ms. induction batch as [|args batch IH]; intros ms C F O R; cbn [map] in C; inversion C; subst.
  - exists []. split; constructor.
  - inversion F; subst. inversion O; subst. inversion R; subst.
    destruct (row_returned ks args y ltac:(assumption) ltac:(assumption) ltac:(assumption) ltac:(assumption)) as (row & WR & RT).
    destruct (IH _ ltac:(eassumption) ltac:(assumption) ltac:(assumption) ltac:(assumption)) as (rows & WS & RS).
    exists (row :: rows). split; constructor; assumption.
Qed.

Lemma stored checks insert select batch defs oks hd rowms last c d :
  ps_stmt_id insert < 2 ^ 32 -> ps_stmt_id select < 2 ^ 32 ->
  Forall (Forall arg_ok) batch -> Forall (Forall rust_ok) batch ->
  Forall (fun args => sendable checks (write_stmt_execute (ps_stmt_id insert) (map to_col args))) batch ->
  Forall2 (fun (args : list arg) m => ok_message (c_cap c) 0 m) batch oks ->
  defs_ok defs -> heading (c_cap c) defs hd -> last_message (c_cap c) last ->
  Forall (fun args => Forall2 (fun a df => fits_column a (column_of df)) args defs) batch ->
  accepting (c_ws c) -> awaits c (oks ++ hd ++ rowms ++ [last]) d ->
  exists rs c1 ms m vss,
    insert_and_select checks insert select batch c = (Ok rs, c1) /\ commanded c c1 (ms ++ [m]) /\
    Forall2 (fun m vs => server_execute (length defs) m = Some (mk_ex (ps_stmt_id insert) 0 1 vs)) ms vss /\
    vss = map (map arg_value) batch /\ server_execute 0 m = Some (mk_ex (ps_stmt_id select) 0 1 []) /\
    (Forall2 (row_of (map column_of defs)) vss rowms ->
     exists rows, delivers (next_row binary_rows) rs c1 rows d /\ Forall2 (Forall2 returned) batch rows).
Proof.
  intros Hi Hs O R S K DO HD L F A W.
  destruct (awaits_app c oks _ d W) as (d1 & W1 & W2).
  destruct (inserted (c_cap c) checks insert batch oks Hi O S K c d1 eq_refl A W1)
    as (c1 & ms & E1 & C1 & R1 & D1 & A1 & P1 & S1).
  destruct (awaits_app c1 hd (rowms ++ [last]) d (W2 c1 D1)) as (d2 & W3 & W4).
  assert (SS : sendable checks (write_stmt_execute (ps_stmt_id select) (map to_col []))).
  { right. unfold write_stmt_execute. rewrite ?app_length. cbn. reflexivity. }
  rewrite <- P1 in HD.
  destruct (stmt_qry_ok (c_cap c1) checks select [] defs hd Hs ltac:(constructor) SS DO HD c1 d2 eq_refl A1 W3)
    as (c2 & ms2 & E2 & C2 & R2 & D2 & A2 & P2 & S2).
  inversion R2 as [|? m ? ? Em En]; subst. inversion En; subst.
  exists (rs_new defs (Some (ps_stmt_id select))), c2, ms, m, (map (map arg_value) batch).
  split; [unfold insert_and_select, ibind; rewrite E1; exact E2|].
  split; [eapply commanded_trans; eassumption|]. split; [|split; [reflexivity|split]].
  - clear -R1 F. revert ms R1. induction F as [|args batch Fa F IH]; intros ms R1; cbn [map] in *; inversion R1; subst; constructor.
    + match goal with H : executes _ _ _ |- _ => unfold executes in H; rewrite map_length, (Forall2_length Fa) in H; exact H end.
    + apply IH. assumption.
  - exact Em.
  - intros RO. destruct (rows_returned _ _ _ RO) as (rows & WR & RT); [|assumption|assumption|].
    { clear -F. induction F as [|args batch Fa F IH]; constructor; [|exact IH]. clear -Fa. induction Fa; constructor; auto. }
    exists rows. split; [|exact RT].
    refine (proj1 (binary_delivers c2 defs (Some (ps_stmt_id select)) rows rowms last d DO _ _ (W4 c2 eq_refl))).
    + unfold binary_rows_wire. rewrite map_map in WR. exact WR.
    + rewrite P2, P1. exact L.
Qed.
