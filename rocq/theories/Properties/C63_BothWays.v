(** C63: a table reads the same through a query and through a prepared statement.
    The server, the application and the contract for chrono: Spec/BothWays.v. *)
From Coq Require Import Strings.String Lia.
From Verif Require Import Model.Base Model.Auth Model.Utf8 Model.Packet Model.Conn Model.Time Model.Col Model.Row Model.Stmt Model.Extract Model.Session
  Spec.Wire Spec.Temporal Spec.Packets Spec.Values Spec.Framing Spec.Session Spec.Commands Spec.Execute Spec.ExtractSpec
  Spec.ResultSets Spec.SqlSpec Spec.Echo Spec.BothWays
  Proofs.BaseLemmas Proofs.ExtractProofs Proofs.SessionProofs Proofs.CommandProofs Proofs.DmlProofs Proofs.EchoProofs Proofs.BothWaysProofs.
Open Scope N_scope.

(** one cell: both protocols give the value *)
Theorem C63_cell : forall D (R : readers D) q dec k v s w rest, readers_ok R ->
  asked q dec k v -> shown dec k v s -> sent k v w ->
  as_text R q (Some s) = meant R q v /\ extract (fst k) (as_binary R q) (w ++ rest) = meant R q v.
Proof. exact same_answer. Qed.
Print Assumptions C63_cell.

(** any type asked of any column: where both protocols give an answer it is the same one, except
    exactly for the cells listed in [differs] *)
Theorem C63_agree : forall D (R : readers D) q dec k v s w rest a b, readers_ok R -> shown dec k v s -> sent k v w ->
  as_text R q (Some s) = Ok a -> extract (fst k) (as_binary R q) (w ++ rest) = Ok b ->
  (a = b <-> ~ differs q dec k v).
Proof. exact agree. Qed.
Print Assumptions C63_agree.

(** whole tables: the query and the statement deliver as many rows as the table has, and every cell of
    both answers what it holds *)
Theorem C63_table : forall D (R : readers D) checks sql ps args defs table
    hd tms last c d hd' bms last' c' d', readers_ok R ->
  sendable checks sql -> ps_stmt_id ps < 2 ^ 32 -> Forall arg_ok args ->
  sendable checks (write_stmt_execute (ps_stmt_id ps) (map to_col args)) -> defs_ok defs ->
  heading (c_cap c) defs hd -> Forall2 (text_row_of defs) table tms -> last_message (c_cap c) last ->
  accepting (c_ws c) -> awaits c (hd ++ tms ++ [last]) d ->
  heading (c_cap c') defs hd' -> Forall2 (binary_row_of defs) table bms -> last_message (c_cap c') last' ->
  accepting (c_ws c') -> awaits c' (hd' ++ bms ++ [last']) d' ->
  exists rs c1 trows rs' c1' brows,
    query_qry checks sql c = (Ok rs, c1) /\ delivers (next_row text_rows) rs c1 trows d /\
    stmt_qry checks ps (map to_col args) c' = (Ok rs', c1') /\ delivers (next_row binary_rows) rs' c1' brows d' /\
    length trows = length table /\ length brows = length table /\
    forall i j vs trow brow df v q, nth_error table i = Some vs -> nth_error trows i = Some trow -> nth_error brows i = Some brow ->
      nth_error defs j = Some df -> nth_error vs j = Some v -> asked q (cd_decimals df) (column_of df) v ->
      get_col (as_text R q) trow j = meant R q v /\ get_col (as_binary R q) brow j = meant R q v.
Proof.
  intros D R checks sql ps args defs table hd tms last c d hd' bms last' c' d' RO S1 Hid O S2 DO HD T L A W HD' B L' A' W'.
  destruct (rows_same D R defs table RO tms bms T B) as (trows & brows & W1 & W2 & F & L1 & L2).
  destruct (awaits_app c hd (tms ++ [last]) d W) as (d1 & X1 & X2).
  destruct (qry_ok (c_cap c) checks sql defs hd S1 DO HD c d1 eq_refl A X1) as (c1 & rq & E & _ & _ & D1 & _ & C1 & _).
  destruct (awaits_app c' hd' (bms ++ [last']) d' W') as (d2 & X3 & X4).
  destruct (stmt_qry_ok (c_cap c') checks ps args defs hd' Hid O S2 DO HD' c' d2 eq_refl A' X3) as (c2 & rq' & E' & _ & _ & D2 & _ & C2 & _).
  exists (rs_new defs None), c1, trows, (rs_new defs (Some (ps_stmt_id ps))), c2, brows.
  split; [exact E|]. split; [refine (proj1 (text_delivers c1 defs None trows tms last d DO W1 _ (X2 c1 D1))); rewrite C1; exact L|].
  split; [exact E'|]. split; [refine (proj1 (binary_delivers c2 defs (Some (ps_stmt_id ps)) brows bms last' d' DO W2 _ (X4 c2 D2))); rewrite C2; exact L'|].
  split; [exact L1|]. split; [exact L2|].
  intros i j vs trow brow df v q Hi Ht Hb. revert j df v q.
  clear -F Hi Ht Hb. revert trows brows F i Hi Ht Hb.
  induction table as [|vs0 table IH]; intros trows brows F i Hi Ht Hb; [destruct i; discriminate|].
  destruct trows as [|t0 trows]; [inversion F|]. destruct brows as [|b0 brows]; [inversion F|].
  cbn [combine] in F. inversion F as [|? ? ? ? H F']; subst. destruct i as [|i]; cbn [nth_error] in *.
  - injection Hi as <-. injection Ht as <-. injection Hb as <-. intros j df v q Hd Hv Q. exact (H j df v q Hd Hv Q).
  - exact (IH trows brows F' i Hi Ht Hb).
Qed.
Print Assumptions C63_table.

(** finding: an integer type narrower than the column: the text is read if the number fits, the binary
    value is refused whatever the number *)
Theorem C63_narrow_refuted : forall D (R : readers D) q dec k z s w rest bits unsigned t,
  ask_int q = Some (bits, unsigned) -> fst k = int_ct t -> ~ int_fits bits t ->
  (if unsigned then 0 <= z < 2 ^ Z.of_N bits else - 2 ^ (Z.of_N bits - 1) <= z < 2 ^ (Z.of_N bits - 1))%Z ->
  shown dec k (VInt z) s -> sent k (VInt z) w ->
  as_text R q (Some s) = Ok (Some (GInt z)) /\ extract (fst k) (as_binary R q) (w ++ rest) = Err EColType.
Proof.
  intros D R q dec k z s w rest bits uq t A K NF RG S B.
  destruct S as [(t' & K' & CR & S)|(K' & _)]; [|rewrite K in K'; destruct t; discriminate].
  assert (t' = t) by (apply int_ct_inj; congruence). subst t'. split.
  - destruct uq; [exact (proj1 (int_text_unsigned D R q bits z s A S) RG)|exact (proj1 (int_text_signed D R q bits z s A S) RG)].
  - destruct (sent_inv _ _ _ B) as (b & W & V & _). rewrite (extract_is _ _ _ _ _ W). rewrite K in W.
    destruct (int_inv _ _ _ W) as (n & -> & Hn). rewrite meaning_int in V. injection V as V. subst z.
    exact (proj2 (int_binary D R q bits uq t (snd k) n A CR Hn) NF).
Qed.
Print Assumptions C63_narrow_refuted.

(** finding: the upper half of an UNSIGNED column asked for as a wider signed type: the text gives the
    number, the binary value a negative one *)
Theorem C63_unsigned_refuted : forall D (R : readers D) q dec k z s w rest bits t,
  ask_int q = Some (bits, false) -> fst k = int_ct t -> snd k = true -> int_fits bits t -> int_bits t < bits ->
  (2 ^ (Z.of_N (int_bits t) - 1) <= z)%Z -> shown dec k (VInt z) s -> sent k (VInt z) w ->
  as_text R q (Some s) = Ok (Some (GInt z)) /\
  extract (fst k) (as_binary R q) (w ++ rest) = Ok (Some (GInt (z - 2 ^ Z.of_N (int_bits t)))).
Proof.
  intros D R q dec k z s w rest bits t A K U F LT H S B.
  destruct S as [(t' & K' & CR & S)|(K' & _)]; [|rewrite K in K'; destruct t; discriminate].
  assert (t' = t) by (apply int_ct_inj; congruence). subst t'. split.
  - apply (proj1 (int_text_signed D R q bits z s A S)). rewrite U in CR. cbn in CR.
    assert (2 ^ Z.of_N (int_bits t) <= 2 ^ (Z.of_N bits - 1))%Z by (apply Z.pow_le_mono_r; lia). lia.
  - destruct (sent_inv _ _ _ B) as (b & W & V & _). rewrite (extract_is _ _ _ _ _ W). rewrite K in W.
    destruct (int_inv _ _ _ W) as (n & -> & Hn). rewrite meaning_int in V. injection V as V. subst z.
    rewrite (proj1 (int_binary D R q bits false t (snd k) n A CR Hn) F). cbv iota. unfold half_read. rewrite U. cbn [andb].
    rewrite U in H. destruct (Z.leb_spec (2 ^ (Z.of_N (int_bits t) - 1)) (sign_of (wire_bits t) true n)); [reflexivity|lia].
Qed.
Print Assumptions C63_unsigned_refuted.

(** finding: the crate's own date-time is read from texts only *)
Theorem C63_my_datetime_refuted : forall D (R : readers D) dec k t s w rest, readers_ok R ->
  fst k = TTimestamp \/ fst k = TDateTime -> real_date (dt_year t) (dt_month t) (dt_day t) ->
  let v := VDateTime (dt_year t) (dt_month t) (dt_day t) (dt_hour t) (dt_minute t) (dt_second t) (dt_micro t) in
  shown dec k v s -> sent k v w ->
  as_text R QMyDateTime (Some s) = Ok (Some (GMy t)) /\ extract (fst k) (as_binary R QMyDateTime) (w ++ rest) = Err EColType.
Proof.
  intros D R dec k t s w rest (_ & RT) K RL v S B. destruct S as [(K' & _)|(_ & ST & ->)]; [destruct K; congruence|].
  destruct t as [y m d h mi sec us]. cbn [dt_year dt_month dt_day dt_hour dt_minute dt_second dt_micro] in *. split.
  - specialize (RT dec _ ST RL). cbn [as_text]. unfold datetime_from_text_col. rewrite from_utf8_cases, datetime_utf8. cbn [rbind].
    assert (LL : blen (datetime_shown dec (mk_dt y m d h mi sec us)) = 19 + (if dec =? 0 then 0 else 1 + dec)).
    { unfold blen, datetime_shown, text_date. rewrite !app_length, !TimeProofs.digits_length. destruct (N.eqb_spec dec 0); [reflexivity|].
      cbn [length]. rewrite TimeProofs.digits_length. cbn [dt_year length]. change (length (str "-")) with 1%nat. lia. }
    rewrite LL.
    assert (BACK : datetime_of_naive (naive (mk_dt y m d h mi sec us)) = mk_dt y m d h mi sec us).
    { destruct ST as (_ & Hy & Hm & Hd & Hh & Hmi & Hs & Hu & _). cbn [dt_year dt_month dt_day dt_hour dt_minute dt_second dt_micro] in *.
      unfold datetime_of_naive, naive, trunc. cbn [ndt_date ndt_time nd_year nd_month nd_day nt_hour nt_minute nt_second nt_nano dt_year dt_month dt_day dt_hour dt_minute dt_second dt_micro].
      change (2 ^ 16) with 65536. change (2 ^ 8) with 256. rewrite !N.mod_small by lia. rewrite N.div_mul by lia. reflexivity. }
    destruct (N.eqb_spec dec 0).
    + change (19 <? 19 + 0) with false. cbv iota. rewrite RT. cbn [rbind]. rewrite BACK. reflexivity.
    + destruct (N.ltb_spec 19 (19 + (1 + dec))); [|lia]. rewrite (proj2 RT). cbn [rbind]. rewrite BACK. reflexivity.
  - destruct (sent_inv _ _ _ B) as (b & W & V & _).
    assert (E : extract (fst k) datetime_from_binary (w ++ rest) = Err EColType)
      by (apply (my_datetime_never _ b); [exact W|destruct K as [-> | ->]; discriminate]).
    rewrite (extract_is _ _ _ _ datetime_from_binary W) in E. rewrite (extract_is _ _ _ _ _ W). cbn [as_binary]. rewrite E. reflexivity.
Qed.
Print Assumptions C63_my_datetime_refuted.

(** *** the hypotheses are met: parsers as assumed exist, and a table with one row of six columns *)
Example C63_readers : readers_ok simple_readers.
Proof. exact simple_readers_ok. Qed.
Definition ex_col (name : string) (ct : column_type) (flags dec : N) : column_def :=
  mk_cd (str "def") [] [] [] (str name) [] 63 20 ct flags dec [].
Definition ex_defs : list column_def :=
  [ex_col "a" TInt24 0 0; ex_col "b" TVarString 0 0; ex_col "c" TLongLong 32 0; ex_col "d" TDateTime 128 3; ex_col "e" TTime 128 6; ex_col "f" TTiny 32 0].
Definition ex_values : list sql_value :=
  [VInt (-8388608); VBytes (str "caf"); VNull; VDateTime 2024 2 29 23 59 58 120000; VTime true 1 2 3 4 5; VInt 200].
Definition ex_texts : list (option bytes) :=
  [Some (str "-8388608"); Some (str "caf"); None; Some (str "2024-02-29 23:59:58.120"); Some (str "-26:03:04.000005"); Some (str "200")].
Definition ex_binary : bytes :=
  x00 :: [n2b 16] ++ wsle 4 (-8388608) ++ wlstr (str "caf") ++
  (wle 1 11 ++ wle 2 2024 ++ wle 1 2 ++ wle 1 29 ++ wle 1 23 ++ wle 1 59 ++ wle 1 58 ++ wle 4 120000) ++
  (wle 1 12 ++ wle 1 1 ++ wle 4 1 ++ wle 1 2 ++ wle 1 3 ++ wle 1 4 ++ wle 4 5) ++ wle 1 200.
Example C63_ex_text : text_row_of ex_defs ex_values (text_row ex_texts).
Proof.
  exists ex_texts. split; [reflexivity|]. split; [reflexivity|]. split; [reflexivity|].
  intros i df v c Hd Hv Hc.
  destruct i as [|[|[|[|[|[|i]]]]]]; [| | | | | |destruct i; discriminate]; cbn [nth_error] in Hd, Hv, Hc;
    injection Hd as <-; injection Hv as <-; injection Hc as <-.
  - split; [|reflexivity]. left. exists IMedium. split; [reflexivity|]. split; [cbn; lia|]. exists 6%nat. split; reflexivity.
  - split; [|reflexivity]. split; [discriminate|reflexivity].
  - reflexivity.
  - split; [|reflexivity]. right. split; [right; reflexivity|]. split; [|reflexivity]. unfold stored_datetime; cbn; lia.
  - split; [|reflexivity]. split; [reflexivity|]. split; [|reflexivity]. unfold stored_time, hours_of; cbn; lia.
  - split; [|reflexivity]. left. exists ITiny. split; [reflexivity|]. split; [cbn; lia|]. exists 2%nat. split; reflexivity.
Qed.
Lemma ex_sent k b v w : wire_value (fst k) b w -> dvalue (column_type_code (fst k)) (snd k) w = Some (v, []) ->
  (forall t, b = BTime t -> zero_time t = true -> t_neg t = false) -> sent k v w.
Proof.
  intros W D Z. split; [split; [eauto|exact D]|]. intros t W'.
  assert (E : b = BTime t).
  { pose proof (ValueProofs.read_wire_value _ _ _ [] W). pose proof (ValueProofs.read_wire_value _ _ _ [] W'). congruence. }
  exact (Z t E).
Qed.
Example C63_ex_binary : binary_row_of ex_defs ex_values ex_binary.
Proof.
  exists [false; false; true; false; false; false], [n2b 16].
  exists (wsle 4 (-8388608) ++ wlstr (str "caf") ++
    (wle 1 11 ++ wle 2 2024 ++ wle 1 2 ++ wle 1 29 ++ wle 1 23 ++ wle 1 59 ++ wle 1 58 ++ wle 4 120000) ++
    (wle 1 12 ++ wle 1 1 ++ wle 4 1 ++ wle 1 2 ++ wle 1 3 ++ wle 1 4 ++ wle 4 5) ++ wle 1 200 ++ []).
  split; [|split].
  - apply sc_value; [apply (ex_sent _ (BInt24 4286578688)); [apply (wv_int24 4286578688); reflexivity|reflexivity|discriminate]|].
    apply sc_value; [apply (ex_sent _ (BVarString (str "caf"))); [apply wv_string; reflexivity|reflexivity|discriminate]|].
    apply sc_null.
    apply sc_value; [apply (ex_sent _ (BDateTime (mk_dt 2024 2 29 23 59 58 120000))); [apply wv_dt11; reflexivity|reflexivity|discriminate]|].
    apply sc_value; [apply (ex_sent _ (BTime (mk_time true 1 2 3 4 5))); [apply (wv_time12 TTime true); reflexivity|reflexivity|]|].
    { intros t E. injection E as <-. discriminate. }
    apply sc_value; [apply (ex_sent _ (BTiny 200)); [apply wv_tiny; reflexivity|reflexivity|discriminate]|]. constructor.
  - split; [reflexivity|]. intros i Hi. cbn [length] in Hi. do 6 (destruct i as [|i]; [reflexivity|]). lia.
  - rewrite app_nil_r. reflexivity.
Qed.
Definition ex_hd : list bytes := wlenenc 6 :: map coldef_wire ex_defs.
Definition ex_last : bytes := ok_wire 0x01000200 0xfe 0 0 2 0 [] [].
Definition ex_conn (ms : list bytes) : conn := mk_conn (chunks ms) [] [] 0x01000200 0 0.
Example C63_ex_table : exists trow brow,
  (exists rs c1, query_qry true (str "SELECT * FROM t") (ex_conn (ex_hd ++ [text_row ex_texts; ex_last])) = (Ok rs, c1) /\
    delivers (next_row text_rows) rs c1 [trow] []) /\
  (exists rs c1, stmt_qry true (mk_ps 7 [] [] 0) [] (ex_conn (ex_hd ++ [ex_binary; ex_last])) = (Ok rs, c1) /\
    delivers (next_row binary_rows) rs c1 [brow] []) /\
  get_col (as_text simple_readers QI24) trow 0 = get_col (as_binary simple_readers QI24) brow 0 /\
  get_col (as_text simple_readers QNaiveDateTime) trow 3 = get_col (as_binary simple_readers QNaiveDateTime) brow 3 /\
  get_col (as_text simple_readers QTime) trow 4 = Ok (Some (GTime (mk_time true 1 2 3 4 5))) /\
  get_col (as_binary simple_readers QU64) brow 5 = Ok (Some (GInt 200)).
Proof.
  assert (HD : heading 0x01000200 ex_defs ex_hd) by (exists []; split; [reflexivity|]; rewrite app_nil_r; reflexivity).
  assert (LM : last_message 0x01000200 ex_last) by (split; [|reflexivity]; constructor; reflexivity).
  assert (DO : defs_ok ex_defs) by (split; [discriminate|]; split; [reflexivity|]; repeat constructor).
  destruct (C63_table bytes simple_readers true (str "SELECT * FROM t") (mk_ps 7 [] [] 0) [] ex_defs [ex_values]
    ex_hd [text_row ex_texts] ex_last (ex_conn (ex_hd ++ [text_row ex_texts; ex_last])) []
    ex_hd [ex_binary] ex_last (ex_conn (ex_hd ++ [ex_binary; ex_last])) []
    C63_readers ltac:(right; reflexivity) ltac:(reflexivity) ltac:(constructor) ltac:(right; reflexivity) DO
    HD ltac:(constructor; [exact C63_ex_text|constructor]) LM ltac:(constructor) ltac:(apply chunks_await; repeat constructor)
    HD ltac:(constructor; [exact C63_ex_binary|constructor]) LM ltac:(constructor) ltac:(apply chunks_await; repeat constructor))
    as (rs & c1 & trows & rs' & c1' & brows & E & T & E' & B & L1 & L2 & K).
  destruct trows as [|trow [|]]; try discriminate. destruct brows as [|brow [|]]; try discriminate.
  exists trow, brow. split; [eauto|]. split; [eauto|].
  pose proof (fun j df v q => K 0%nat j ex_values trow brow df v q eq_refl eq_refl eq_refl) as Q.
  split; [|split; [|split]].
  - destruct (Q 0%nat _ _ QI24 eq_refl eq_refl) as (Q1 & Q2); [|congruence].
    exists 24, false, IMedium. split; [reflexivity|]. split; [reflexivity|]. split; [split; [cbn; lia|reflexivity]|]. left. reflexivity.
  - destruct (Q 3%nat _ _ QNaiveDateTime eq_refl eq_refl) as (Q1 & Q2); [|congruence].
    split; [right; reflexivity|]. unfold real_date, leap_year. split; [lia|]. split; [lia|]. right; right; right.
    split; [reflexivity|]. split; [reflexivity|]. right. split; [reflexivity|discriminate].
  - destruct (Q 4%nat _ _ QTime eq_refl eq_refl) as (Q1 & Q2); [|exact Q1]. split; [discriminate|]. right; right. reflexivity.
  - destruct (Q 5%nat _ _ QU64 eq_refl eq_refl) as (Q1 & Q2); [|exact Q2].
    exists 64, true, ITiny. split; [reflexivity|]. split; [reflexivity|]. split; [split; [cbn; lia|discriminate]|]. left. reflexivity.
Qed.
(** TINYINT UNSIGNED 200 asked for as [i32]; TIME -00:30:00; INT 5 asked for as [i8] *)
Example C63_ex_unsigned : differs QI32 0 (TTiny, true) (VInt 200) /\
  as_text simple_readers QI32 (Some (str "200")) = Ok (Some (GInt 200)) /\
  extract TTiny (as_binary simple_readers QI32) (wle 1 200) = Ok (Some (GInt (-56))).
Proof.
  split; [|split; vm_compute; reflexivity]. split; [exists 32; reflexivity|]. split; [reflexivity|].
  exists ITiny. split; [reflexivity|]. discriminate.
Qed.
Example C63_ex_time : differs QTime 0 (TTime, false) (VTime true 0 0 30 0 0) /\
  as_text simple_readers QTime (Some (str "-00:30:00")) = Ok (Some (GTime (mk_time false 0 0 30 0 0))) /\
  extract TTime (as_binary simple_readers QTime) (wle 1 8 ++ wle 1 1 ++ wle 4 0 ++ wle 1 0 ++ wle 1 30 ++ wle 1 0) =
    Ok (Some (GTime (mk_time true 0 0 30 0 0))).
Proof. split; [|split; vm_compute; reflexivity]. split; [reflexivity|]. left. split; reflexivity. Qed.
Example C63_ex_narrow : ~ int_fits 8 IInt /\ as_text simple_readers QI8 (Some (str "5")) = Ok (Some (GInt 5)) /\
  extract TLong (as_binary simple_readers QI8) (wle 4 5) = Err EColType.
Proof. split; [|split; vm_compute; reflexivity]. intros (H & _). cbn in H. lia. Qed.
