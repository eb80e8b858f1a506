(** Proofs about result sets, statement execution and the commands of a connection *)
From Coq Require Import Strings.String.
From Verif Require Import Model.Base Model.BytesParser Model.LenEnc Model.Utf8 Model.Flags Model.Packet
  Model.Conn Model.Auth Model.Cmd Model.Col Model.Row Model.Stmt Model.Extract Model.Session
  Spec.Nums Spec.Codec Spec.LenEncSpec Spec.Wire Spec.Packets Spec.Values Spec.Framing Spec.Session Spec.Commands Spec.ResultSets
  Proofs.BaseLemmas Proofs.BytesParserProofs Proofs.CodecProofs Proofs.LenEncProofs Proofs.WireLemmas
  Proofs.ConnProofs Proofs.PacketProofs Proofs.CmdProofs Proofs.ValueProofs Proofs.AuthProofs.
Open Scope N_scope.

Lemma contains_deprecate c : contains c DEPRECATE_EOF = cap_deprecate_eof c.
Proof. apply (contains_testbit c 24). Qed.

Lemma sbr_refl c : same_but_read c c.
Proof. repeat split. Qed.
Lemma sbr_trans a b c : same_but_read a b -> same_but_read b c -> same_but_read a c.
Proof. intros (A1 & A2 & A3 & A4) (B1 & B2 & B3 & B4). repeat split; congruence. Qed.
Lemma sbr_cap a b : same_but_read a b -> c_cap b = c_cap a.
Proof. intros (_ & _ & H & _). exact H. Qed.

(** ** awaiting messages *)
Lemma awaits_cons c p ps d : awaits c (p :: ps) d ->
  exists c', recv_msg c = (Ok p, c') /\ awaits c' ps d /\ same_but_read c c'.
Proof.
  intros (w & Hm & Hd). inversion Hm as [|p0 w0 ps0 ws0 seqs H1 H2]; subst.
  rewrite <- app_assoc in Hd. destruct (recv_msg_spec _ _ _ _ _ H1 Hd) as (c' & E1 & E2 & E3 & E4).
  exists c'. splits; auto. exists ws0. auto.
Qed.
Lemma awaits_nil c d : awaits c [] d -> delivered (c_rd c) = d.
Proof. intros (w & Hm & Hd). inversion Hm; subst. exact Hd. Qed.
Lemma awaits_fuel c ps d : awaits c ps d -> (length ps <= sched_len (c_rd c))%nat.
Proof. intros (w & H & Hd). apply (incoming_fuel (fun x => x) (fun x => x) c ps d). exists w. auto. Qed.
Lemma awaits_write c c' ps d : awaits c ps d -> same_but_write c c' -> awaits c' ps d.
Proof. intros (w & H & Hd) (R & _). exists w. rewrite R. auto. Qed.

Lemma ilift_bind {A B} (r : res A) (f : A -> io B) a c : r = Ok a -> ibind (ilift r) f c = f a c.
Proof. intros ->. reflexivity. Qed.

(** ** column definitions *)
Lemma rd_les_string s rest : name_ok s -> read_les_string (wlstr s ++ rest) = (Ok s, rest).
Proof.
  intros [Hl Hu]. unfold read_les_string. rstep. unfold plift, les_into_string, from_utf8. rewrite Hu. reflexivity.
Qed.
#[local] Hint Resolve rd_les_string : rd.

Lemma rd_lei n rest : n < 251 -> read_len_enc_int (wlenenc n ++ rest) = (Ok (Len1 n), rest).
Proof.
  intros H. unfold wlenenc. destruct (N.ltb_spec n 251); [|lia]. cbn [app].
  rewrite read_lei_small; rewrite b2n_n2b_small; auto; lia.
Qed.

Lemma read_field_tail (b : bool) d rest : field_ok d ->
  read_column_def b (coldef_wire d ++ rest)
  = pbind (if b then read_les_string else pret [])
      (fun df => pret (mk_cd (cd_catalog d) (cd_schema d) (cd_table d) (cd_org_table d) (cd_name d) (cd_org_name d)
         (cd_charset d) (cd_col_len d) (cd_type d) (cd_flags d) (cd_decimals d) df)) rest.
Proof.
  intros (H1 & H2 & H3 & H4 & H5 & H6 & Hc & Hl & Hf & Hd & _).
  unfold coldef_wire, read_column_def. rewrite <- !app_assoc.
  do 6 rstep. eapply eq_trans; [eapply pbind_ok; apply rd_lei; reflexivity|]. cbv beta.
  rstep. rstep.
  eapply eq_trans; [eapply pbind_ok; apply rd_u8; apply column_type_code_lt|]. cbv beta.
  rewrite column_type_round_trip. eapply eq_trans; [eapply pbind_ok; reflexivity|]. cbv beta.
  rstep. unfold from_bits.
  assert (E : N.ldiff (cd_flags d) all_column_flags = 0).
  { change all_column_flags with (N.ones 16). apply N.ldiff_ones_r_low.
    destruct (N.eq_dec (cd_flags d) 0) as [->|Hn]; [reflexivity|]. apply N.log2_lt_pow2; [lia|exact Hf]. }
  rewrite E. eapply eq_trans; [eapply pbind_ok; reflexivity|]. cbv beta.
  rstep. eapply eq_trans; [eapply pbind_ok; apply (rd_len rest [x00; x00] 2); reflexivity|]. cbv beta.
  reflexivity.
Qed.
Lemma read_coldef d rest : coldef_ok d -> read_column_def false (coldef_wire d ++ rest) = (Ok d, rest).
Proof.
  intros [H E]. rewrite read_field_tail by exact H. eapply eq_trans; [eapply pbind_ok; reflexivity|].
  cbv beta. rewrite <- E. destruct d; reflexivity.
Qed.
Lemma read_coldef_all d : coldef_ok d -> read_column_def false (coldef_wire d) = (Ok d, []).
Proof. intros H. apply no_app. apply read_coldef. exact H. Qed.
Lemma read_field d rest : field_ok d -> read_column_def true (field_wire d ++ rest) = (Ok d, rest).
Proof.
  intros H. unfold field_wire. rewrite <- app_assoc, read_field_tail by exact H. 
  eapply eq_trans; [eapply pbind_ok; apply rd_les_string; apply H|].
  destruct d; reflexivity.
Qed.
Lemma read_field_all d : field_ok d -> read_column_def true (field_wire d) = (Ok d, []).
Proof. intros H. apply no_app. apply read_field. exact H. Qed.

Lemma recv_col_defs_ok defs : Forall coldef_ok defs -> forall c ps d, awaits c (map coldef_wire defs ++ ps) d ->
  exists c', recv_col_defs (length defs) c = (Ok defs, c') /\ awaits c' ps d /\ same_but_read c c'.
Proof.
  induction 1 as [|x defs Hx H IH]; intros c ps d Ha.
  - exists c. splits; auto using sbr_refl.
  - destruct (awaits_cons _ _ _ _ Ha) as (c1 & E1 & A1 & S1).
    destruct (IH _ _ _ A1) as (c2 & E2 & A2 & S2).
    exists c2. splits; eauto using sbr_trans. cbn [length recv_col_defs].
    rewrite (ibind_ok _ _ _ _ _ E1). unfold parse. rewrite read_coldef_all by exact Hx.
    rewrite (ilift_bind _ _ x) by reflexivity. rewrite (ibind_ok _ _ _ _ _ E2). reflexivity.
Qed.
Lemma eof_message_reads cap m : eof_message cap m -> exists p rest, read_eof_packet cap m = (Ok p, rest).
Proof.
  intros H. destruct H as [w s Hw Hs|s w info state D P Hs]; [rewrite eof_decodes by assumption; eauto|].
  destruct (eof_in_ok cap s w info state P Hs) as (rest & E). eauto.
Qed.
Lemma ok_message_reads cap h m : h < 256 -> ok_message cap h m -> exists p, read_ok_packet cap m = (Ok p, []).
Proof. intros Hh H. destruct H. rewrite ok_decodes by assumption. eauto. Qed.
Lemma err_message_reads cap m e : err_message cap m e ->
  exists p, read_err_packet cap true m = (Ok p, []) /\ error_of_err_packet p = e.
Proof.
  intros H. destruct H as [code state msg Hc Hs Hu Hm Hp]. rewrite err_decodes by assumption. rewrite Hp.
  eexists. split; [reflexivity|]. unfold error_of_err_packet, from_utf8. cbn [er_state er_message er_code er_marker].
  rewrite Hu, Hm. reflexivity.
Qed.
Lemma ok_message_head cap h m : ok_message cap h m -> exists r, m = n2b h :: r.
Proof. intros H. destruct H. unfold ok_wire. eauto. Qed.
Lemma eof_message_head cap m : eof_message cap m -> exists r, m = xfe :: r.
Proof. intros H. destruct H; [unfold eof_wire|unfold ok_wire]; eauto. Qed.
Lemma err_message_head cap m e : err_message cap m e -> exists r, m = xff :: r.
Proof. intros H. destruct H. unfold err_wire. eauto. Qed.

Lemma recv_defs_eof_ok c e ps d : defs_end (c_cap c) e -> awaits c (e ++ ps) d ->
  exists c', recv_defs_eof c = (Ok tt, c') /\ awaits c' ps d /\ same_but_read c c'.
Proof.
  unfold defs_end, recv_defs_eof. rewrite contains_deprecate. destruct (cap_deprecate_eof (c_cap c)).
  - intros -> Ha. exists c. splits; auto using sbr_refl.
  - intros (m & Hm & ->) Ha. destruct (awaits_cons _ _ _ _ Ha) as (c1 & E1 & A1 & S1).
    exists c1. splits; auto. rewrite (ibind_ok _ _ _ _ _ E1).
    destruct (eof_message_reads _ _ Hm) as (p & rest & Ep). unfold parse. rewrite Ep. reflexivity.
Qed.

(** ** the column count *)
Lemma wlenenc_head n : 1 <= n -> n < 2 ^ 32 -> exists b r, wlenenc n = b :: r /\ b2n b <> 255 /\ b2n b <> 0.
Proof.
  intros H1 H2. unfold wlenenc. destruct (N.ltb_spec n 251).
  - exists (n2b n), []. rewrite b2n_n2b_small by lia. splits; auto; lia.
  - destruct (n <? 2 ^ 16); [|destruct (n <? 2 ^ 24)]; eexists _, _; split; try reflexivity; split; discriminate.
Qed.
Lemma lei_u32 n : n < 2 ^ 32 -> exists l, read_len_enc_int (wlenenc n) = (Ok l, []) /\ lei_to_u32 l = Some n.
Proof.
  intros H. pose proof (read_lei_lenenc n (wlenenc n) [] (wlenenc_spec n ltac:(lia))) as R.
  rewrite app_nil_r in R.
  destruct R as (l & R1 & R2). exists l. split; [exact R1|].
  destruct l; cbn in R2 |- *; try discriminate; try exact R2.
  injection R2 as ->. unfold trunc. rewrite N.mod_small by exact H. reflexivity.
Qed.
Lemma col_cnt_ok cap n : 1 <= n -> n < 2 ^ 32 -> parse_col_cnt_packet cap (wlenenc n) = Ok n.
Proof.
  intros H1 H2. unfold parse_col_cnt_packet. destruct (wlenenc_head n H1 H2) as (b & r & E & B1 & B2).
  destruct (lei_u32 n H2) as (l & R & L). rewrite E in R |- *.
  destruct (N.eqb_spec (b2n b) 255); [contradiction|]. destruct (N.eqb_spec (b2n b) 0); [contradiction|].
  rewrite R. cbn [rbind]. rewrite L. reflexivity.
Qed.

Lemma new_result_set_ok c defs hd ps d stmt : defs_ok defs -> heading (c_cap c) defs hd -> awaits c (hd ++ ps) d ->
  exists c', new_result_set stmt c = (Ok (rs_new defs stmt), c') /\ awaits c' ps d /\ same_but_read c c'.
Proof.
  intros (Hn & Hl & Hd) (e & He & ->) Ha. cbn [app] in Ha. rewrite <- app_assoc in Ha.
  destruct (awaits_cons _ _ _ _ Ha) as (c1 & E1 & A1 & S1).
  destruct (recv_col_defs_ok defs Hd _ _ _ A1) as (c2 & E2 & A2 & S2).
  assert (C2 : c_cap c2 = c_cap c) by (rewrite (sbr_cap _ _ S2), (sbr_cap _ _ S1); reflexivity).
  rewrite <- C2 in He. destruct (recv_defs_eof_ok _ _ _ _ He A2) as (c3 & E3 & A3 & S3).
  exists c3. splits; eauto using sbr_trans.
  unfold new_result_set. rewrite (ibind_ok _ _ _ _ _ E1).
  assert (L1 : 1 <= N.of_nat (length defs)) by (destruct defs; [congruence|cbn [length]; lia]).
  rewrite (ilift_bind _ _ (N.of_nat (length defs))) by (apply col_cnt_ok; assumption).
  destruct (N.eqb_spec (N.of_nat (length defs)) 0); [lia|]. rewrite Nat2N.id.
  rewrite (ibind_ok _ _ _ _ _ E2), (ibind_ok _ _ _ _ _ E3). reflexivity.
Qed.
Lemma new_result_set_empty c m ps d stmt : ok_message (c_cap c) 0 m -> awaits c (m :: ps) d ->
  exists c', new_result_set stmt c = (Ok (rs_empty stmt), c') /\ awaits c' ps d /\ same_but_read c c'.
Proof.
  intros Hm Ha. destruct (awaits_cons _ _ _ _ Ha) as (c1 & E1 & A1 & S1).
  exists c1. splits; auto. unfold new_result_set. rewrite (ibind_ok _ _ _ _ _ E1).
  rewrite (ilift_bind _ _ 0); [reflexivity|].
  destruct (ok_message_reads _ 0 _ eq_refl Hm) as (p & Ep). destruct (ok_message_head _ _ _ Hm) as (r & Er).
  unfold parse_col_cnt_packet. rewrite Ep. rewrite Er. reflexivity.
Qed.
Lemma new_result_set_err c m e ps d stmt : err_message (c_cap c) m e -> awaits c (m :: ps) d ->
  exists c', new_result_set stmt c = (Err e, c') /\ awaits c' ps d /\ same_but_read c c'.
Proof.
  intros Hm Ha. destruct (awaits_cons _ _ _ _ Ha) as (c1 & E1 & A1 & S1).
  exists c1. splits; auto. unfold new_result_set. rewrite (ibind_ok _ _ _ _ _ E1).
  destruct (err_message_reads _ _ _ Hm) as (p & Ep & Ee). destruct (err_message_head _ _ _ Hm) as (r & Er).
  unfold parse_col_cnt_packet. rewrite Ep, Er. cbn [fst rbind]. rewrite Ee. reflexivity.
Qed.

(** ** delivering rows *)
Section Yields.
  Context {A : Type} (next : rs_io (option A)).

  (** [next] yields [rows] and then None for ever, leaving [d] unread *)
  Inductive yields : result_set -> conn -> list A -> bytes -> Prop :=
  | y_nil rs c rs' c' d : next rs c = (Ok None, rs', c') -> (forall c, next rs' c = (Ok None, rs', c)) ->
      delivered (c_rd c') = d -> same_but_read c c' -> yields rs c [] d
  | y_cons rs c row rs' c' rows d : next rs c = (Ok (Some row), rs', c') -> same_but_read c c' ->
      yields rs' c' rows d -> yields rs c (row :: rows) d.

  Lemma firstn_repeat_enough {B} (x : B) l n m : (n <= m)%nat -> firstn n (l ++ repeat x m) = firstn n (l ++ repeat x n).
  Proof.
    intros H. rewrite !firstn_app. f_equal.
    replace m with ((n - length l) + (m - (n - length l)))%nat by lia.
    rewrite repeat_app, firstn_app, repeat_length, Nat.sub_diag. cbn [firstn]. rewrite app_nil_r.
    replace (repeat x n) with (repeat x (n - length l) ++ repeat x (n - (n - length l))).
    - rewrite firstn_app, repeat_length, Nat.sub_diag. cbn [firstn]. rewrite app_nil_r. reflexivity.
    - rewrite <- repeat_app. f_equal. lia.
  Qed.
  Lemma expected_cons row (rows : list A) n : expected (row :: rows) (S n) = Ok (Some row) :: expected rows n.
  Proof.
    unfold expected. cbn [map app firstn]. f_equal. apply firstn_repeat_enough. lia.
  Qed.
  Lemma expected_nil n : expected (@nil A) (S n) = Ok None :: expected [] n.
  Proof. reflexivity. Qed.

  Lemma pulls_none rs : (forall c, next rs c = (Ok None, rs, c)) -> forall n c, pulls next n rs c = (expected [] n, rs, c).
  Proof.
    intros H. induction n as [|n IH]; intros c; [reflexivity|]. cbn [pulls]. rewrite H, IH. reflexivity.
  Qed.
  Lemma yields_pulls rs c rows d : yields rs c rows d -> forall n,
    exists rs' c', pulls next n rs c = (expected rows n, rs', c') /\ same_but_read c c' /\
     ((length rows < n)%nat -> delivered (c_rd c') = d).
  Proof.
    induction 1 as [rs c rs' c' d H1 H2 H3 H4|rs c row rs' c' rows d H1 H2 H3 IH]; intros n;
      (destruct n as [|n]; [exists rs, c; splits; [reflexivity|apply sbr_refl|lia]|]).
    - exists rs', c'. cbn [pulls]. rewrite H1, (pulls_none rs' H2). splits; auto.
    - destruct (IH n) as (rs2 & c2 & E & S & D). exists rs2, c2. cbn [pulls]. rewrite H1, E, expected_cons.
      splits; [reflexivity|eauto using sbr_trans|]. cbn [length]. intros L. apply D. lia.
  Qed.
  Lemma yields_while {B} (step : B -> A -> B) rs c rows d : yields rs c rows d -> forall fuel acc, (length rows < fuel)%nat ->
    exists rs' c', while_rows fuel next step acc rs c = (Ok (fold_left step rows acc), rs', c') /\
      delivered (c_rd c') = d /\ same_but_read c c'.
  Proof.
    induction 1 as [rs c rs' c' d H1 H2 H3 H4|rs c row rs' c' rows d H1 H2 H3 IH]; intros fuel acc L;
      (destruct fuel as [|fuel]; [cbn [length] in L; lia|]); cbn [while_rows]; rewrite H1.
    - exists rs', c'. auto.
    - destruct (IH fuel (step acc row)) as (rs2 & c2 & E & D & S); [cbn [length] in L; lia|].
      exists rs2, c2. rewrite E. splits; eauto using sbr_trans.
  Qed.
  Lemma fold_rows (rows : list A) : forall acc, fold_left (fun rows row => rows ++ [row]) rows acc = acc ++ rows.
  Proof.
    induction rows as [|r rows IH]; intros acc; cbn [fold_left]; [symmetry; apply app_nil_r|].
    rewrite IH, <- app_assoc. reflexivity.
  Qed.
  Lemma fold_count (rows : list A) : forall acc, fold_left (fun cnt _ => cnt + 1) rows acc = acc + N.of_nat (length rows).
  Proof. induction rows as [|r rows IH]; intros acc; cbn [fold_left length]; [lia|]. rewrite IH. lia. Qed.
  Lemma fold_first (rows : list A) :
    fold_left (fun first row => match first with None => Some row | Some _ => first end) rows None = hd_error rows.
  Proof.
    destruct rows as [|r rows]; [reflexivity|]. cbn [fold_left hd_error].
    induction rows as [|x rows IH]; [reflexivity|]. exact IH.
  Qed.
  Lemma yields_delivers rs c rows d : yields rs c rows d -> (length rows <= sched_len (c_rd c))%nat ->
    delivers next rs c rows d.
  Proof.
    intros H L. assert (L' : (length rows < S (sched_len (c_rd c)))%nat) by lia. unfold delivers. splits.
    - apply yields_pulls. exact H.
    - destruct (yields_while (fun rows row => rows ++ [row]) _ _ _ _ H _ [] L') as (rs' & c' & E & D & S).
      exists rs', c'. unfold rs_all. rewrite E, fold_rows. auto.
    - destruct (yields_while (fun cnt _ => cnt + 1) _ _ _ _ H _ 0 L') as (rs' & c' & E & D & S).
      exists rs', c'. unfold rs_count. rewrite E, fold_count. auto.
    - destruct (yields_while (fun first row => match first with None => Some row | Some _ => first end) _ _ _ _ H _ None L')
        as (rs' & c' & E & D & S).
      exists rs', c'. unfold rs_first_or_none. rewrite E, fold_first. auto.
    - destruct (yields_while (fun first row => match first with None => Some row | Some _ => first end) _ _ _ _ H _ None L')
        as (rs' & c' & E & D & S).
      exists rs', c'. unfold rs_first, rs_first_or_none. rewrite E, fold_first. splits; auto. destruct rows; reflexivity.
  Qed.
End Yields.

Lemma yields_map {Q O} (rd : result_set -> parser (list Q)) (f : list Q -> O) rs c rows d :
  yields (next_row rd) rs c rows d -> yields (map_next_row rd f) rs c (map f rows) d.
Proof.
  induction 1 as [rs c rs' c' d H1 H2 H3 H4|rs c row rs' c' rows d H1 H2 H3 IH]; cbn [map].
  - apply (y_nil _ rs c rs' c'); auto.
    + unfold map_next_row. rewrite H1. reflexivity.
    + intros c0. unfold map_next_row. rewrite H2. reflexivity.
  - apply (y_cons _ rs c (f row) rs' c'); auto. unfold map_next_row. rewrite H1. reflexivity.
Qed.

(** ** rows and the end of the rows *)
Definition row_msg {Q} (rd : result_set -> parser (list Q)) (rs : result_set) (row : list Q) (m : bytes) : Prop :=
  (exists b r, m = b :: r /\ (b = xfe -> 2 ^ 24 <= blen m)) /\ fst (rd rs m) = Ok row.

Lemma next_row_row {Q} (rd : result_set -> parser (list Q)) rs c row m ps d :
  rs_completed rs = false -> row_msg rd rs row m -> awaits c (m :: ps) d ->
  exists c', next_row rd rs c = (Ok (Some row), rs, c') /\ awaits c' ps d /\ same_but_read c c'.
Proof.
  intros Hc ((b & r & Em & Hb) & Hr) Ha. destruct (awaits_cons _ _ _ _ Ha) as (c1 & E1 & A1 & S1).
  exists c1. splits; auto. unfold next_row. rewrite Hc, E1. unfold next_row_msg. rewrite Em in *.
  destruct (N.eqb_spec (b2n b) 254) as [E|E].
  - assert (B : b = xfe) by (apply b2n_inj; exact E). specialize (Hb B).
    destruct (N.leb_spec (blen (b :: r)) 0xffffff) as [L|L]; [exfalso; lia|]. cbn [andb]. rewrite Hr. reflexivity.
  - cbn [andb]. rewrite Hr. reflexivity.
Qed.
Lemma next_row_last {Q} (rd : result_set -> parser (list Q)) rs c m d :
  rs_completed rs = false -> last_message (c_cap c) m -> awaits c [m] d ->
  exists c', next_row rd rs c = (Ok None, rs_complete rs, c') /\ delivered (c_rd c') = d /\ same_but_read c c'.
Proof.
  intros Hc Hm Ha. destruct (awaits_cons _ _ _ _ Ha) as (c1 & E1 & A1 & S1).
  exists c1. splits; auto using awaits_nil. unfold next_row. rewrite Hc, E1. unfold next_row_msg, last_message in *.
  rewrite contains_deprecate. destruct (cap_deprecate_eof (c_cap c)) eqn:Dep.
  - destruct Hm as [Hm Hl]. destruct (ok_message_reads _ 0xfe _ eq_refl Hm) as (p & Ep).
    destruct (ok_message_head _ _ _ Hm) as (r & Er). rewrite Ep. rewrite Er in *.
    destruct (N.leb_spec (blen (n2b 0xfe :: r)) 0xffffff) as [L|L]; [reflexivity|].
    exfalso. unfold blen in L. change (2 ^ 24) with 16777216 in Hl. lia.
  - destruct (eof_message_reads _ _ Hm) as (p & rest & Ep).
    assert (L : blen m <= 0xffffff).
    { destruct Hm; [|congruence]. unfold eof_wire. destruct (cap_protocol_41 (c_cap c)).
      - unfold blen. cbn [length]. rewrite app_length, !wle_length. cbn. lia.
      - cbn. lia. }
    destruct (eof_message_head _ _ Hm) as (r & Er). rewrite Ep. rewrite Er in *.
    destruct (N.leb_spec (blen (xfe :: r)) 0xffffff) as [L'|L']; [reflexivity|lia].
Qed.
Lemma next_row_done {Q} (rd : result_set -> parser (list Q)) rs : rs_completed rs = true ->
  forall c, next_row rd rs c = (Ok None, rs, c).
Proof. intros H c. unfold next_row. rewrite H. reflexivity. Qed.

Lemma rows_yield {Q} (rd : result_set -> parser (list Q)) rs rows ms last d : rs_completed rs = false ->
  Forall2 (row_msg rd rs) rows ms -> forall c, last_message (c_cap c) last -> awaits c (ms ++ [last]) d ->
  yields (next_row rd) rs c rows d.
Proof.
  intros Hc H. induction H as [|row m rows ms H1 H2 IH]; intros c Hl Ha.
  - destruct (next_row_last rd _ _ _ _ Hc Hl Ha) as (c1 & E1 & D1 & S1).
    apply (y_nil _ rs c (rs_complete rs) c1); auto.
  - destruct (next_row_row rd _ _ _ _ _ _ Hc H1 Ha) as (c1 & E1 & A1 & S1).
    apply (y_cons _ rs c row rs c1); auto. apply IH; [|exact A1]. rewrite (sbr_cap _ _ S1). exact Hl.
Qed.

Lemma text_row_msg defs stmt row : defs_ok defs -> length row = length defs ->
  Forall (fun c => match c with Some s => N.of_nat (length s) < 2 ^ 64 | None => True end) row ->
  row_msg text_rows (rs_new defs stmt) row (text_row row).
Proof.
  intros (Hn & Hl & _) Hr Hc. split.
  - destruct row as [|cell row]; [destruct defs; [congruence|discriminate]|].
    unfold text_row. cbn [map concat]. destruct cell as [s|].
    + cbn [text_cell]. unfold wlstr. inversion Hc as [|? ? Hs Ht]; subst.
      destruct (wlenenc_nonempty (N.of_nat (length s))) as (b & l & E).
      fold (blen s) in E. unfold blen in E. rewrite E. cbn [app]. eexists _, _. split; [reflexivity|].
      intros ->. unfold wlenenc in E.
      destruct (N.ltb_spec (N.of_nat (length s)) 251) as [L|L].
      { injection E as E _. apply (f_equal b2n) in E. rewrite b2n_n2b_small in E by lia. cbn in E. lia. }
      destruct (N.ltb_spec (N.of_nat (length s)) (2 ^ 16)); [discriminate|].
      destruct (N.ltb_spec (N.of_nat (length s)) (2 ^ 24)) as [M|M]; [discriminate|].
      unfold blen. cbn [length]. rewrite !app_length. lia.
    + eexists _, _. split; [reflexivity|discriminate].
  - unfold text_rows. cbn [rs_new rs_col_defs]. rewrite <- Hr.
    pose proof (read_text_row_wire row [] ltac:(rewrite Hr; lia) Hc) as R. rewrite app_nil_r in R. rewrite R. reflexivity.
Qed.
Lemma binary_row_msg defs stmt row m : wire_row (map cd_type defs) row m ->
  row_msg binary_rows (rs_new defs stmt) row m.
Proof.
  intros H. split.
  - destruct H as (nulls & bm & cols & _ & _ & ->). eexists _, _. split; [reflexivity|discriminate].
  - unfold binary_rows. cbn [rs_new rs_col_types]. rewrite <- (app_nil_r m), (read_row _ _ _ [] H). reflexivity.
Qed.

Lemma awaits_rows_fuel {Q} (P : list Q -> bytes -> Prop) rows ms last c d :
  Forall2 P rows ms -> awaits c (ms ++ [last]) d -> (length rows <= sched_len (c_rd c))%nat.
Proof.
  intros H Ha. apply awaits_fuel in Ha. rewrite app_length in Ha. cbn [length] in Ha. assert (L : length rows = length ms) by (clear - H; induction H; cbn [length]; auto). lia.
Qed.

Lemma text_result_set c defs rows hd ms last d stmt : defs_ok defs -> heading (c_cap c) defs hd ->
  text_rows_wire defs rows ms -> last_message (c_cap c) last -> awaits c (hd ++ ms ++ [last]) d ->
  exists c', new_result_set stmt c = (Ok (rs_new defs stmt), c') /\ same_but_read c c' /\
    yields (next_row text_rows) (rs_new defs stmt) c' rows d /\ (length rows <= sched_len (c_rd c'))%nat.
Proof.
  intros Hd Hh Hr Hl Ha. destruct (new_result_set_ok c defs hd _ d stmt Hd Hh Ha) as (c1 & E1 & A1 & S1).
  assert (R : Forall2 (row_msg text_rows (rs_new defs stmt)) rows ms).
  { clear - Hr Hd. induction Hr as [|row m rows ms (H1 & H2 & ->) H IH]; constructor; auto using text_row_msg. }
  exists c1. splits; auto.
  - apply (rows_yield text_rows (rs_new defs stmt) rows ms last d eq_refl R); [|exact A1].
    rewrite (sbr_cap _ _ S1). exact Hl.
  - eapply awaits_rows_fuel; eassumption.
Qed.
Lemma binary_result_set c defs rows hd ms last d stmt : defs_ok defs -> heading (c_cap c) defs hd ->
  binary_rows_wire defs rows ms -> last_message (c_cap c) last -> awaits c (hd ++ ms ++ [last]) d ->
  exists c', new_result_set stmt c = (Ok (rs_new defs stmt), c') /\ same_but_read c c' /\
    yields (next_row binary_rows) (rs_new defs stmt) c' rows d /\ (length rows <= sched_len (c_rd c'))%nat.
Proof.
  intros Hd Hh Hr Hl Ha. destruct (new_result_set_ok c defs hd _ d stmt Hd Hh Ha) as (c1 & E1 & A1 & S1).
  assert (R : Forall2 (row_msg binary_rows (rs_new defs stmt)) rows ms).
  { clear - Hr Hd. induction Hr as [|row m rows ms H1 H IH]; constructor; auto using binary_row_msg. }
  exists c1. splits; auto.
  - apply (rows_yield binary_rows (rs_new defs stmt) rows ms last d eq_refl R); [|exact A1].
    rewrite (sbr_cap _ _ S1). exact Hl.
  - eapply awaits_rows_fuel; eassumption.
Qed.
