(** * Column definitions, prepared statements and rows are taken exactly for what their layout says *)
From Coq Require Import Lia.
From Verif Require Import Model.Base Model.BytesParser Model.LenEnc Model.Utf8 Model.Flags Model.Packet Model.Cmd Model.Time Model.Bitmap
  Model.Col Model.Row Model.Stmt Model.Event Model.EventBody Model.Rows Model.Session
  Spec.Nums Spec.LenEncSpec Spec.Wire Spec.Packets Spec.BitmapSpec Spec.Values Spec.Accepts
  Proofs.BaseLemmas Proofs.BytesParserProofs Proofs.LenEncProofs Proofs.PacketProofs Proofs.ValueProofs Proofs.BitmapProofs
  Proofs.AcceptsProofs Proofs.AcceptsPackets.
Open Scope N_scope.

(** ** Column definitions *)
Lemma bind_assoc {A B C} (p : parser A) (f : A -> parser B) (g : B -> parser C) bs :
  pbind p (fun a => pbind (f a) g) bs = pbind (pbind p f) g bs.
Proof. unfold pbind. destruct (p bs) as [[a|e|w|] rest]; reflexivity. Qed.

Lemma te_les_string : takes_exactly read_les_string (fun s w => utf8_valid s = true /\ lstring_or_mark s w).
Proof.
  unfold read_les_string. eapply te_bind with (F := fun l s w => les_into_string l = Ok s /\ w = []); [apply te_les| |].
  - intros l w _. intros bs v rest. unfold plift. split.
    + intros [= H <-]. exists []. auto.
    + intros (w1 & -> & H & ->). rewrite H. reflexivity.
  - intros s w. split.
    + intros (U & [H|(-> & [-> | ->])]).
      * exists (LesBytes s), w, []. rewrite app_nil_r. split; [reflexivity|]. split; [exact H|]. split; [apply utf8_ok; auto|reflexivity].
      * exists LesNull, [xfb], []. repeat split.
      * exists LesErr, [xff], []. repeat split.
    + intros (l & w1 & w2 & -> & H & X & ->). rewrite app_nil_r. destruct l as [| |l]; cbn in H, X.
      * injection X as <-. split; [reflexivity|]. right. auto.
      * injection X as <-. split; [reflexivity|]. right. auto.
      * apply utf8_ok in X. destruct X as [U ->]. split; [exact U|]. left. exact H.
Qed.

Lemma code_type c t : column_type_of (b2n c) = Ok t <-> b2n c = column_type_code t.
Proof. destruct c; destruct t; cbn; split; intros H; try discriminate; reflexivity. Qed.
Lemma te_column_type : takes_exactly (c <- read_u8 ;; plift (column_type_of c)) (fun t w => byte1 (column_type_code t) w).
Proof.
  eapply te_bind with (F := fun c t w => column_type_of c = Ok t /\ w = []); [apply te_u8| |].
  - intros l w _. intros bs v rest. unfold plift. split.
    + intros [= H <-]. exists []. auto.
    + intros (w1 & -> & H & ->). rewrite H. reflexivity.
  - intros t w. split.
    + intros H. exists (column_type_code t), w, []. rewrite app_nil_r. split; [reflexivity|]. split; [exact H|]. split; [|reflexivity].
      apply byte1_eq in H. destruct H as (b & -> & E). rewrite E. apply code_type. symmetry. exact E.
    + intros (c & w1 & w2 & -> & H & X & ->). rewrite app_nil_r. pose proof H as H'. apply byte1_eq in H'. destruct H' as (b & -> & ->).
      apply code_type in X. rewrite <- X. exact H.
Qed.
Lemma te_flags : takes_exactly (f <- read_le_u16 ;; match from_bits all_column_flags f with Some f => pret f | None => pfail EConstraint end) (is_le 2).
Proof.
  eapply te_bind with (F := fun f g w => g = f /\ w = []); [apply te_u16| |].
  - intros f w H. apply is_le_bound in H. unfold from_bits. change all_column_flags with (N.ones 16).
    rewrite (proj2 (ldiff_mask 16 f) H). apply te_ret. tauto.
  - intros g w. split; [intros H; exists g, w, []; rewrite app_nil_r; auto|].
    intros (f & w1 & w2 & -> & H & -> & ->). rewrite app_nil_r. exact H.
Qed.

Definition utf8s (l : list bytes) : Prop := Forall (fun s => utf8_valid s = true) l.
Lemma accepts_column_def fl : takes_exactly (read_column_def fl) (coldef_layout fl).
Proof.
  unfold read_column_def, coldef_layout.
  eapply te_iff with (E := fun d w => (utf8_valid (cd_catalog d) = true /\ utf8_valid (cd_schema d) = true /\ utf8_valid (cd_table d) = true /\
    utf8_valid (cd_org_table d) = true /\ utf8_valid (cd_name d) = true /\ utf8_valid (cd_org_name d) = true /\ utf8_valid (cd_default d) = true) /\ _).
  { intros d w. rewrite !Forall_cons_iff. split.
    - intros [H X]. split; [decompose [and] H; repeat split; try assumption; constructor|exact X].
    - intros [H X]. split; [tauto|exact X]. }
  apply (te_field_if _ (fun s => utf8_valid s = true) lstring_or_mark _ cd_catalog); [apply te_les_string|tauto|intros catalog H1].
  apply (te_field_if _ (fun s => utf8_valid s = true) lstring_or_mark _ cd_schema); [apply te_les_string|tauto|intros schema H2].
  apply (te_field_if _ (fun s => utf8_valid s = true) lstring_or_mark _ cd_table); [apply te_les_string|tauto|intros table H3].
  apply (te_field_if _ (fun s => utf8_valid s = true) lstring_or_mark _ cd_org_table); [apply te_les_string|tauto|intros otable H4].
  apply (te_field_if _ (fun s => utf8_valid s = true) lstring_or_mark _ cd_name); [apply te_les_string|tauto|intros name H5].
  apply (te_field_if _ (fun s => utf8_valid s = true) lstring_or_mark _ cd_org_name); [apply te_les_string|tauto|intros oname H6].
  eapply te_skip; [apply te_lei|apply any_lenenc_lei|intros _].
  apply (te_field _ (is_le 2) _ cd_charset); [apply te_u16|intros charset].
  apply (te_field _ (is_le 4) _ cd_col_len); [apply te_u32|intros col_len].
  eapply te_ext; [intros bs; apply bind_assoc|].
  apply (te_field _ (fun t w => byte1 (column_type_code t) w) _ cd_type); [apply te_column_type|intros ct].
  eapply te_ext; [intros bs; apply bind_assoc|].
  apply (te_field _ (is_le 2) _ cd_flags); [apply te_flags|intros flags].
  apply (te_field _ byte1 _ cd_decimals); [apply te_u8|intros decimals].
  eapply te_skip; [apply (te_len 2)|apply (any_len 2)|intros _].
  destruct fl.
  - apply (te_field_if _ (fun s => utf8_valid s = true) (only_if true lstring_or_mark []) _ cd_default); [apply te_les_string|tauto|intros default H7].
    apply te_done. parts.
  - apply (te_field_if _ (fun s => utf8_valid s = true) (only_if false lstring_or_mark []) _ cd_default); [|tauto|intros default H7].
    + apply te_ret. intros v w. cbn. split; [tauto|]. intros [-> ->]. repeat split.
    + apply te_done. parts.
Qed.
Lemma accepts_prepare_ok : takes_exactly read_stmt_prepare_ok prepare_ok_layout.
Proof.
  unfold read_stmt_prepare_ok, prepare_ok_layout.
  eapply te_iff with (E := fun d w => spo_status d = 0 /\ fields (byte1 (spo_status d) ::
    [is_le 4 (spo_stmt_id d); is_le 2 (spo_n_cols d); is_le 2 (spo_n_params d); any 1; is_le 2 (spo_n_warnings d)]) w).
  { intros d w. cbv beta. split; intros [H X]; (split; [exact H|]); [rewrite H in X|rewrite H]; apply (fields_head x00); exact X. }
  apply (te_field _ byte1 _ spo_status); [apply te_u8|intros status].
  destruct (N.eqb_spec status 0) as [->|n]; cbn [negb];
    [|apply te_fail; [discriminate|intros v w [[H X] _]; congruence]].
  apply (te_field _ (is_le 4) _ spo_stmt_id); [apply te_u32|intros stmt_id].
  apply (te_field _ (is_le 2) _ spo_n_cols); [apply te_u16|intros n_cols].
  apply (te_field _ (is_le 2) _ spo_n_params); [apply te_u16|intros n_params].
  eapply te_skip; [apply te_u8|apply any1_u8|intros _].
  apply (te_field _ (is_le 2) _ spo_n_warnings); [apply te_u16|intros n_warnings].
  apply te_done. parts.
Qed.
Lemma accepts_eof_message cap : takes_message (read_eof_packet cap) (fun p w => fields [eof_layout cap p; leftover] w).
Proof. apply tm_of, accepts_eof. Qed.
Lemma accepts_coldef_message fl : takes_message (read_column_def fl) (fun p w => fields [coldef_layout fl p; leftover] w).
Proof. apply tm_of, accepts_column_def. Qed.
Lemma accepts_debug cap : takes_message (read_debug_response cap) (debug_layout cap).
Proof.
  intros msg v. destruct msg as [|b msg]; [empty_reply v|]. cbn [read_debug_response].
  pick b xfe E0; [reply (accepts_eof_message cap) v|].
  pick b xff E2; [reply (accepts_err cap true) v|]. other_reply v.
Qed.
Lemma accepts_set_option cap : takes_message (read_set_option_response cap) (set_option_layout cap).
Proof.
  intros msg v. destruct msg as [|b msg]; [empty_reply v|]. cbn [read_set_option_response].
  pick b xff E2; [reply (accepts_err cap true) v|].
  pick b xfe E0; [reply (accepts_eof_message cap) v|]. other_reply v.
Qed.
Lemma no_empty_coldef fl d : ~ fields [coldef_layout fl d; leftover] [].
Proof.
  rewrite fields_cons_inv. intros (w1 & w2 & E & H & _). symmetry in E. apply app_eq_nil in E. destruct E as [-> _].
  destruct H as [_ H]. do 7 (apply fields_cons_inv in H; destruct H as (? & ? & E & ? & H); symmetry in E; apply app_eq_nil in E; destruct E as [-> ->]).
  apply fields_cons_inv in H. destruct H as (? & ? & E & [X _] & H). symmetry in E. apply app_eq_nil in E. destruct E as [-> ->]. discriminate.
Qed.
Lemma accepts_field_list cap sql : takes_message (read_field_list_response cap sql) (field_list_layout cap sql).
Proof.
  intros msg v. destruct msg as [|b msg].
  { split; [discriminate|]. intros X. destruct v; cbn in X; try no_reply. destruct X as (_ & _ & X). destruct (no_empty_coldef _ _ X). }
  cbn [read_field_list_response].
  pick b xff E2.
  { rewrite fst_pmap. split.
    - intros (p & -> & X). split; [apply starts_cons; reflexivity|apply accepts_err; exact X].
    - destruct v; intros X; cbn -[err_layout eof_layout coldef_layout] in X;
        first [exfalso; apply (proj1 X); apply starts_cons; reflexivity|wrong_reply|idtac].
      eexists. split; [reflexivity|apply accepts_err; apply X]. }
  pick b xfe E0.
  { rewrite fst_pmap. split.
    - intros (p & -> & X). split; [apply starts_cons; reflexivity|apply accepts_eof_message; exact X].
    - destruct v; intros X; cbn -[err_layout eof_layout coldef_layout] in X;
        first [exfalso; apply (proj1 (proj2 X)); apply starts_cons; reflexivity|wrong_reply|idtac].
      eexists. split; [reflexivity|apply accepts_eof_message; apply X]. }
  rewrite fst_pmap. split.
  - intros (p & -> & X). apply accepts_coldef_message in X.
    split; [intros S; announced|]. split; [intros S; announced|exact X].
  - destruct v; intros X; cbn -[err_layout eof_layout coldef_layout] in X; try wrong_reply.
    eexists. split; [reflexivity|apply accepts_coldef_message; apply X].
Qed.

(** ** Rows *)
Lemma te_repeat {A} (p : parser A) E n : takes_exactly p E ->
  takes_exactly (prepeat n p) (fun vs w => length vs = n /\ fields (map E vs) w).
Proof.
  intros P. induction n as [|n IH]; cbn [prepeat].
  { apply te_ret. intros v w. split; [intros [H X]; destruct v; [|discriminate]; apply fields_nil_inv in X; auto|].
    intros [-> ->]. split; [reflexivity|constructor]. }
  eapply te_bind with (F := fun a vs w => exists l, vs = a :: l /\ length l = n /\ fields (map E l) w); [exact P| |].
  - intros a w0 _. apply (te_map (cons a) _ _ _ IH). reflexivity.
  - intros vs w. split.
    + intros [H X]. destruct vs as [|a l]; [discriminate|]. cbn [map] in X. apply fields_cons_inv in X.
      destruct X as (w1 & w2 & -> & X1 & X2). exists a, w1, w2. repeat split; try assumption. exists l. repeat split; [injection H as H; exact H|exact X2].
    + intros (a & w1 & w2 & -> & H & l & -> & L & X). cbn [length map]. rewrite L. split; [reflexivity|]. constructor; assumption.
Qed.
Lemma te_text_value : takes_exactly read_text_value text_value_layout.
Proof.
  unfold read_text_value.
  eapply te_bind with (F := fun l v w => match l with LesNull => v = None | LesBytes s => v = Some s | LesErr => False end /\ w = []); [apply te_les| |].
  - intros [| |s] w0 _; [apply te_ret; tauto|apply te_fail; [discriminate|tauto]|apply te_ret; tauto].
  - intros v w. split.
    + destruct v as [s|]; intros H; cbn in H; [exists (LesBytes s), w, []|exists LesNull, w, []]; rewrite app_nil_r; auto.
    + intros ([| |s] & w1 & w2 & -> & H & X & ->); rewrite app_nil_r; [subst v; exact H|destruct X|subst v; exact H].
Qed.
Lemma with_capacity_ok k n u : with_capacity k n = Ok u <-> k * n < 2 ^ 63.
Proof. unfold with_capacity. destruct u. destruct (N.leb_spec (2 ^ 63) (k * n)) as [H|H]; split; intros X; [discriminate|lia|exact H|reflexivity]. Qed.
Lemma te_capacity {A} k n (p : parser A) E : takes_exactly p E ->
  takes_exactly (plift (with_capacity k n) ;;; p) (fun v w => k * n < 2 ^ 63 /\ E v w).
Proof.
  intros P. apply te_lift.
  - intros u H. apply with_capacity_ok in H. eapply te_iff; [|exact P]. tauto.
  - intros H v w [X _]. apply (H tt). apply with_capacity_ok. exact X.
Qed.
Lemma accepts_text_row n : takes_exactly (read_text_row n) (text_row_layout n).
Proof.
  unfold read_text_row. eapply te_iff; [|apply te_capacity, te_repeat, te_text_value].
  intros cs w. unfold text_row_layout. cbv beta. intuition lia.
Qed.

(** a chain of fields whose values are the arguments of the result *)
Lemma te_arg {A B} (p : parser A) (E : A -> bytes -> Prop) (f : A -> parser B) (T : A -> B -> list (bytes -> Prop) -> Prop) :
  takes_exactly p E -> (forall a, takes_exactly (f a) (fun v w => exists fs, T a v fs /\ fields fs w)) ->
  takes_exactly (pbind p f) (fun v w => exists fs, (exists a fs', T a v fs' /\ fs = E a :: fs') /\ fields fs w).
Proof.
  intros P Q. eapply te_bind; [exact P|intros a w _; exact (Q a)|]. intros v w. cbv beta. split.
  - intros (fs & (a & fs' & H & ->) & X). apply fields_cons_inv in X. destruct X as (w1 & w2 & -> & X1 & X2). exists a, w1, w2. eauto 6.
  - intros (a & w1 & w2 & -> & H & fs & X & Y). exists (E a :: fs). split; [eauto|constructor; assumption].
Qed.
Lemma te_end {A} (a : A) : takes_exactly (pret a) (fun v w => exists fs, (v = a /\ fs = []) /\ fields fs w).
Proof. apply te_ret. intros v w. split; [intros (fs & (-> & ->) & X); apply fields_nil_inv in X; auto|intros [-> ->]; exists []; repeat split; constructor]. Qed.
Ltac args := repeat (eapply te_arg; [first [apply te_u8|apply te_u16|apply te_u24|apply te_u32|apply te_u48|apply te_u64|apply te_u128]|intros ?]); apply te_end.
Ltac dex := repeat match goal with
  | H : exists _, _ |- _ => destruct H
  | H : _ /\ _ |- _ => destruct H
  end; subst.
(** a length byte first *)
Lemma te_byte_then {A} (f : N -> parser A) (L : A -> bytes -> Prop) :
  (forall b, takes_exactly (f (b2n b)) (fun v w => L v (b :: w))) -> (forall v, ~ L v []) -> takes_exactly (n <- read_u8 ;; f n) L.
Proof.
  intros P N. eapply te_bind with (F := fun n v w => L v (n2b n :: w)); [apply te_u8| |].
  - intros n w0 H. apply byte1_eq in H. destruct H as (b & -> & ->). rewrite n2b_b2n. apply P.
  - intros v w. split.
    + intros H. destruct w as [|b w]; [destruct (N v H)|]. exists (b2n b), [b], w. split; [reflexivity|]. split; [apply byte1_eq; eauto|].
      rewrite n2b_b2n. exact H.
    + intros (n & w1 & w2 & -> & H & X). apply byte1_eq in H. destruct H as (b & -> & ->). rewrite n2b_b2n in X. exact X.
Qed.
Lemma fields_lit b c fs w : fields (exactly [b] :: fs) (c :: w) <-> c = b /\ fields fs w.
Proof.
  rewrite fields_cons_inv. split.
  - intros (w1 & w2 & E & -> & H). injection E as -> ->. auto.
  - intros [-> H]. exists [b], w. repeat split. exact H.
Qed.
Lemma fields_lit0 b fs : ~ fields (exactly [b] :: fs) [].
Proof. rewrite fields_cons_inv. intros (w1 & w2 & E & -> & H). discriminate. Qed.
Ltac inv_layout H := inversion H; subst; try discriminate;
  repeat match goal with
  | X : fields (exactly [_] :: _) (_ :: _) |- _ => apply fields_lit in X; destruct X as [X ?]; try discriminate X
  | X : fields (exactly [_] :: _) [] |- _ => destruct (fields_lit0 _ _ X)
  end.
Ltac build := eexists; split; [|eassumption]; repeat (eexists; eexists; split; [|reflexivity]); split; reflexivity.
Ltac no_len L := apply te_fail; [discriminate|let v := fresh in let w := fresh in let H := fresh in intros v w H; apply L in H; destruct H as [H|H]; discriminate].
Ltac one_of H := inv_layout H; cbn in *; try congruence; left; reflexivity.
Lemma date_len v b w : binary_value_layout TDate v (b :: w) -> b2n b = 0 \/ b2n b = 4.
Proof. intros H. inv_layout H; subst; cbn; auto. Qed.
Lemma time_kind ct : is_time ct = true -> string_kind ct = None /\ is_datetime ct = false.
Proof. destruct ct; try discriminate; auto. Qed.
Lemma time_len ct v b w : is_time ct = true -> binary_value_layout ct v (b :: w) -> In (b2n b) [0; 8; 12].
Proof. intros T H. destruct (time_kind ct T) as [K D]. inv_layout H; try congruence; subst; cbn; auto 6. Qed.
Lemma datetime_kind ct : is_datetime ct = true -> string_kind ct = None /\ is_time ct = false.
Proof. destruct ct; try discriminate; auto. Qed.
Lemma datetime_len ct v b w : is_datetime ct = true -> binary_value_layout ct v (b :: w) -> In (b2n b) [0; 4; 7; 11].
Proof. intros T H. destruct (datetime_kind ct T) as [K D]. inv_layout H; try congruence; subst; cbn; auto 6. Qed.
Ltac no_len_in L T := apply te_fail; [discriminate|let v := fresh in let w := fresh in let H := fresh in intros v w H; apply (L _ _ _ _ T) in H;
  cbn in H; intuition discriminate].
Lemma te_date : takes_exactly read_binary_date (binary_value_layout TDate).
Proof.
  apply te_byte_then; [|intros v H; inv_layout H].
  intros b. destruct b; try (no_len date_len; fail); [change (b2n x00) with 0|change (b2n x04) with 4]; cbv iota.
  - apply te_ret. intros v w. split; [intros H; inv_layout H; auto|intros [-> ->]; constructor].
  - eapply te_iff; [|args]. intros v w. cbv beta. split.
    + intros H. dex. constructor. apply fields_lit. split; [reflexivity|assumption].
    + intros H. inv_layout H. build.
Qed.
Lemma te_sign : takes_exactly (n <- read_u8 ;; pret (n =? 1)) sign_layout.
Proof.
  eapply te_bind with (F := fun n v w => v = (n =? 1) /\ w = []); [apply te_u8|intros n w _; apply te_ret; tauto|].
  intros v w. unfold sign_layout. split; [intros (n & H & E); exists n, w, []; rewrite app_nil_r; auto|].
  intros (n & w1 & w2 & -> & H & E & ->). rewrite app_nil_r. eauto.
Qed.
Ltac sign := match goal with |- takes_exactly (pbind read_u8 (fun n => pbind read_le_u32 (@?f n))) _ =>
  eapply (te_ext _ (pbind (n <- read_u8 ;; pret (n =? 1)) (fun b => _))) end.
Lemma te_time ct : is_time ct = true -> takes_exactly read_binary_time (binary_value_layout ct).
Proof.
  intros T. assert (K : string_kind ct = None) by (destruct ct; try discriminate; reflexivity).
  assert (D : is_datetime ct = false) by (destruct ct; try discriminate; reflexivity).
  apply te_byte_then; [|intros v H; inv_layout H; try congruence; try (cbn in *; congruence)].
  intros b. destruct b; try (no_len_in time_len T; fail); [change (b2n x00) with 0|change (b2n x08) with 8|change (b2n x0c) with 12]; cbv iota zeta.
  - apply te_ret. intros v w. split; [intros H; inv_layout H; cbn in *; try congruence; auto|intros [-> ->]; constructor; exact T].
  - eapply te_ext with (q := neg <- (n <- read_u8 ;; pret (n =? 1)) ;; days <- read_le_u32 ;;
      hour <- read_u8 ;; minute <- read_u8 ;; second <- read_u8 ;; pret (BTime (mk_time neg days hour minute second 0))).
    { intros bs. rewrite <- bind_assoc. reflexivity. }
    eapply te_iff; [|eapply te_arg; [apply te_sign|intros neg; args]]. intros v w. cbv beta. split.
    + intros H. dex. apply bl_time8; [exact T|]. apply fields_lit. split; [reflexivity|assumption].
    + intros H. inv_layout H; cbn in *; try congruence. build.
  - eapply te_ext with (q := neg <- (n <- read_u8 ;; pret (n =? 1)) ;; days <- read_le_u32 ;;
      hour <- read_u8 ;; minute <- read_u8 ;; second <- read_u8 ;; micro <- read_le_u32 ;; pret (BTime (mk_time neg days hour minute second micro))).
    { intros bs. rewrite <- bind_assoc. reflexivity. }
    eapply te_iff; [|eapply te_arg; [apply te_sign|intros neg; args]]. intros v w. cbv beta. split.
    + intros H. dex. apply bl_time12; [exact T|]. apply fields_lit. split; [reflexivity|assumption].
    + intros H. inv_layout H; cbn in *; try congruence. build.
Qed.

Lemma te_datetime ct : is_datetime ct = true -> takes_exactly read_binary_datetime (binary_value_layout ct).
Proof.
  intros T. destruct (datetime_kind ct T) as [K D].
  apply te_byte_then; [|intros v H; inv_layout H; try congruence; try (cbn in *; congruence)].
  intros b. destruct b; try (no_len_in datetime_len T; fail);
    [change (b2n x00) with 0|change (b2n x04) with 4|change (b2n x07) with 7|change (b2n x0b) with 11]; cbv iota zeta.
  - apply te_ret. intros v w. split; [intros H; inv_layout H; cbn in *; try congruence; auto|intros [-> ->]; constructor; exact T].
  - eapply te_iff; [|args]. intros v w. cbv beta. split.
    + intros H. dex. apply bl_dt4; [exact T|]. apply fields_lit. split; [reflexivity|assumption].
    + intros H. inv_layout H; cbn in *; try congruence. build.
  - eapply te_iff; [|args]. intros v w. cbv beta. split.
    + intros H. dex. apply bl_dt7; [exact T|]. apply fields_lit. split; [reflexivity|assumption].
    + intros H. inv_layout H; cbn in *; try congruence. build.
  - eapply te_iff; [|args]. intros v w. cbv beta. split.
    + intros H. dex. apply bl_dt11; [exact T|]. apply fields_lit. split; [reflexivity|assumption].
    + intros H. inv_layout H; cbn in *; try congruence. build.
Qed.
Lemma te_string_value ct wrap : string_kind ct = Some wrap -> takes_exactly (read_les_value wrap) (binary_value_layout ct).
Proof.
  intros K. unfold read_les_value.
  eapply te_bind with (F := fun l v w => match l with LesNull => v = BNull | LesBytes s => v = wrap s | LesErr => False end /\ w = []); [apply te_les| |].
  - intros [| |s] w0 _; [apply te_ret; tauto|apply te_fail; [discriminate|tauto]|apply te_ret; tauto].
  - intros v w. split.
    + intros H. inversion H; subst; try discriminate; try (destruct ct; discriminate);
        match goal with X : string_kind _ = Some ?w' |- _ => rewrite K in X; injection X as <- end.
      * exists (LesBytes s), w, []. rewrite app_nil_r. auto.
      * exists LesNull, [xfb], []. repeat split.
    + intros ([| |s] & w1 & w2 & -> & H & X & ->); rewrite app_nil_r; [subst v; cbn in H; subst w1|destruct X|subst v].
      * eapply bl_string_null; exact K.
      * apply bl_string; [exact K|exact H].
Qed.
Lemma te_mapped {A} (wrap : A -> binary_value) (p : parser A) E ct : takes_exactly p E ->
  (forall v w, binary_value_layout ct v w <-> exists a, v = wrap a /\ E a w) -> takes_exactly (pmap wrap p) (binary_value_layout ct).
Proof. intros P H. exact (te_map wrap p E _ P H). Qed.
Ltac mapped L := apply (te_mapped _ _ _ _ L); intros v w; split;
  [intros H; inversion H; subst; try discriminate; eauto|intros (a & -> & H); constructor; exact H].
Lemma accepts_binary_value ct : takes_exactly (read_binary_value ct) (binary_value_layout ct).
Proof.
  destruct ct; cbn [read_binary_value];
    try (apply te_string_value; reflexivity); try (apply te_datetime; reflexivity); try (apply te_time; reflexivity);
    try exact te_date; try (mapped te_u8; fail); try (mapped te_u16; fail); try (mapped te_u32; fail); try (mapped te_u64; fail); try (mapped te_f32; fail); try (mapped te_f64; fail).
  apply te_ret. intros v w. split; [intros H; inversion H; subst; try discriminate; auto|intros [-> ->]; constructor].
Qed.
Lemma te_binary_cols bits cts i : (i + length cts <= 8 * length bits)%nat -> (2 <= i)%nat ->
  takes_exactly (read_binary_cols cts bits i) (columns_layout (fun i => bit bits (i + 2)) (i - 2) cts).
Proof.
  revert i. induction cts as [|ct cts IH]; intros i L I; cbn [read_binary_cols].
  - apply te_ret. intros v w. split; [intros H; inversion H; auto|intros [-> ->]; constructor].
  - cbn [length] in L. rewrite bm_next_some by lia. apply te_lift; [|intros X; destruct (X _ eq_refl)]. intros o [= <-].
    replace (bit bits i) with (bit bits (i - 2 + 2)) by (f_equal; lia).
    replace (S i) with (S (S (i - 1))) by lia.
    assert (IH' := IH (S i) ltac:(lia) ltac:(lia)). replace (S i - 2)%nat with (S (i - 2)) in IH' by lia. replace (S (S (i - 1))) with (S i) by lia.
    destruct (bit bits (i - 2 + 2)) eqn:B.
    + eapply te_bind with (F := fun a vs w => a = BNull /\ exists l, vs = a :: l /\ columns_layout (fun i => bit bits (i + 2)) (S (i - 2)) cts l w);
        [apply te_ret with (E := fun v w => v = BNull /\ w = []); tauto| |].
      * intros a w0 [-> _].
        apply te_iff with (E := fun vs w => exists l, vs = BNull :: l /\ columns_layout (fun i => bit bits (i + 2)) (S (i - 2)) cts l w);
          [intros v w; tauto|apply (te_map (cons BNull) _ _ _ IH'); reflexivity].
      * intros v w. split.
        -- intros H. inversion H; subst; [|congruence]. exists BNull, [], w. repeat split. eauto.
        -- intros (a & w1 & w2 & -> & [_ ->] & -> & l & -> & H). apply cl_null; assumption.
    + eapply te_bind with (F := fun a vs w => exists l, vs = a :: l /\ columns_layout (fun i => bit bits (i + 2)) (S (i - 2)) cts l w);
        [apply accepts_binary_value| |].
      * intros a w0 _. apply (te_map (cons a) _ _ _ IH'). reflexivity.
      * intros v w. split.
        -- intros H. inversion H; subst; [congruence|]. eexists _, _, _. split; [reflexivity|]. split; [eassumption|]. eexists. split; [reflexivity|assumption].
        -- intros (a & w1 & w2 & -> & H1 & l & -> & H). apply cl_value; assumption.
Qed.
Lemma accepts_binary_row cts : takes_exactly (read_binary_row cts) (binary_row_layout cts).
Proof.
  unfold read_binary_row. cbv zeta.
  assert (E : N.shiftr (N.of_nat (length cts) + 7 + 2) 3 = N.of_nat ((length cts + 9) / 8)).
  { rewrite N.shiftr_div_pow2, Nat2N.inj_div, Nat2N.inj_add. f_equal. lia. }
  rewrite E. clear E.
  eapply te_bind with (F := fun _ vs w => exists bm w2, w = bm ++ w2 /\ length bm = ((length cts + 9) / 8)%nat /\ columns_layout (fun i => bit bm (i + 2)) 0 cts vs w2); [apply te_u8| |].
  - intros _ w0 _. eapply te_bind with (F := fun bm vs w => columns_layout (fun i => bit bm (i + 2)) 0 cts vs w); [apply te_len| |].
    + intros bm w1 [L _]. apply (te_binary_cols bm cts 2); [|lia].
      assert (length bm = ((length cts + 9) / 8)%nat) by lia. pose proof (Nat.div_mod (length cts + 9) 8). pose proof (Nat.mod_upper_bound (length cts + 9) 8). lia.
    + intros v w. split.
      * intros (bm & w2 & -> & L & H). exists bm, bm, w2. repeat split; [lia|exact H].
      * intros (bm & w1 & w2 & -> & [L ->] & H). exists bm, w2. repeat split; [lia|exact H].
  - intros v w. unfold binary_row_layout. split.
    + intros (bm & L & H). apply fields_cons_inv in H. destruct H as (w1 & w2 & -> & H1 & H). apply fields_cons_inv in H.
      destruct H as (w3 & w4 & -> & -> & H). rewrite fields_one in H. apply any1_u8 in H1. destruct H1 as (n & H1).
      exists n, w1, (bm ++ w4). split; [reflexivity|]. split; [exact H1|]. exists bm, w4. auto.
    + intros (n & w1 & w2 & -> & H1 & bm & w3 & -> & L & H). exists bm. split; [exact L|].
      constructor; [apply any1_u8; eauto|]. constructor; [reflexivity|]. apply fields_one. exact H.
Qed.
