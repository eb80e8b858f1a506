(** * Statements and documents for row images with any set of columns *)
From Coq Require Import Strings.String.
From Verif Require Import Model.Base Model.BytesParser Model.Utf8 Model.Bitmap Model.Flags Model.Auth Model.Fmt Model.Time Model.Decimal Model.Col
  Model.Row Model.Rows Model.Stmt Model.Transform
  Spec.Nums Spec.BitmapSpec Spec.SqlSpec Spec.JsonSpec Spec.Images
  Proofs.BaseLemmas Proofs.BitmapProofs Proofs.DecimalProofs Proofs.SqlProofs Proofs.SqlStmtProofs Proofs.JsonProofs.
From Coq Require Import Lia Permutation Sorted.
Open Scope N_scope.

Lemma Forall2_impl {A B} (P Q : A -> B -> Prop) l m : (forall a b, P a b -> Q a b) -> Forall2 P l m -> Forall2 Q l m.
Proof. intros H. induction 1; constructor; auto. Qed.

(** ** Present columns *)
Lemma bit_out bs i : (8 * length bs <= i)%nat -> bit bs i = false.
Proof.
  intros H. unfold bit. rewrite nth_overflow; [apply N.bits_0|]. apply Nat.div_le_lower_bound; lia.
Qed.
Lemma filter_present (bitmap : bytes) (l : list column_def) : forall i m, (8 * length bitmap <= i + m)%nat ->
  map (fun p => col_def_of (snd p)) (filter fst (combine (map (bit bitmap) (seq i m)) l)) = map col_def_of (present_from bitmap i l).
Proof.
  induction l as [|a l IH]; intros i m Hm.
  - destruct (map (bit bitmap) (seq i m)); reflexivity.
  - destruct m as [|m].
    + cbn [seq map combine filter present_from]. rewrite bit_out by lia. rewrite <- (IH (S i) O) by lia. reflexivity.
    + cbn [seq map combine filter fst present_from]. destruct (bit bitmap i); cbn [map snd]; rewrite IH by lia; reflexivity.
Qed.
Lemma filter_cols bitmap (defs : list column_def) : filter_col_defs bitmap defs = Ok (map col_def_of (present bitmap defs)).
Proof.
  unfold filter_col_defs. rewrite bm_to_iter_spec by lia. unfold bits_from. cbn [rmap rbind]. f_equal. rewrite Nat.sub_0_r.
  apply filter_present. lia.
Qed.
Lemma present_incl {A} bitmap (l : list A) (P : A -> Prop) : Forall P l -> forall i, Forall P (present_from bitmap i l).
Proof. induction 1 as [|a l Ha _ IH]; intros i; cbn [present_from]; [constructor|]. destruct (bit bitmap i); [constructor|]; auto. Qed.

(** ** Reading back *)
Lemma lx_peel esc s ts rest us : lx esc s ts rest -> lex esc (s ++ rest) = Some (ts ++ us) -> lex esc rest = Some us.
Proof.
  unfold lx. intros -> H. destruct (lex esc rest) as [vs|]; [|discriminate]. cbn in H. injection H as H. apply app_inv_head in H. subst. reflexivity.
Qed.
Definition dbl (t : bytes) : bytes := flat_map (fun b => if Byte.eqb b backtick then [backtick; backtick] else [b]) t.
Lemma scan_name_dbl : forall n s t r, (length s <= n)%nat -> scan_name s = Some (t, r) -> s = dbl t ++ backtick :: r.
Proof.
  induction n as [|n IH]; intros s t r L H; (destruct s as [|b s]; [discriminate|]); [cbn in L; lia|].
  cbn [scan_name length] in H, L. destruct (Byte.eqb b backtick) eqn:Eb.
  - apply Byte.byte_dec_bl in Eb. subst b. destruct s as [|c s]; [injection H as <- <-; reflexivity|].
    destruct (Byte.eqb c backtick) eqn:Ec.
    + apply Byte.byte_dec_bl in Ec. subst c. destruct (scan_name s) as [[t' r']|] eqn:E; [|discriminate]. injection H as <- <-.
      apply IH in E; [|cbn in L; lia]. rewrite E. cbn [dbl flat_map]. rewrite byte_eqb_refl. reflexivity.
    + injection H as <- <-. reflexivity.
  - destruct (scan_name s) as [[t' r']|] eqn:E; [|discriminate]. injection H as <- <-. apply IH in E; [|lia]. rewrite E.
    cbn [dbl flat_map]. rewrite Eb. reflexivity.
Qed.
Lemma dbl_shift q : forall k rest r, match rest with [] => True | b :: _ => b <> backtick end ->
  q ++ backtick :: rest = repeat backtick (S k) ++ dbl q ++ backtick :: r -> False.
Proof.
  induction q as [|c q IH]; intros k rest r Hr H.
  - cbn [app repeat dbl flat_map] in H. injection H as H. destruct rest as [|b rest]; [destruct k; discriminate|].
    destruct k; cbn [repeat app] in H; injection H as H _; contradiction.
  - cbn [app repeat] in H. injection H as -> H. apply (IH (S k) rest r Hr). rewrite H.
    cbn [dbl flat_map]. rewrite byte_eqb_refl. cbn [app]. change (repeat backtick (S (S k))) with (backtick :: backtick :: repeat backtick k).
    cbn [app]. clear. induction k as [|k IH]; [reflexivity|]. cbn [repeat app] in *. rewrite IH. reflexivity.
Qed.
Lemma scan_name_plain n rest r : match rest with [] => True | b :: _ => b <> backtick end ->
  scan_name (n ++ backtick :: rest) = Some (n, r) -> plain_name n.
Proof.
  intros Hr H. apply (scan_name_dbl (length (n ++ backtick :: rest))) in H; [|lia].
  assert (G : forall m : bytes, m ++ backtick :: rest = dbl m ++ backtick :: r -> plain_name m); [|apply G; exact H].
  induction m as [|c m IH]; intros E; [intros []|]. cbn [dbl flat_map] in E. destruct (Byte.eqb c backtick) eqn:Ec.
  - apply Byte.byte_dec_bl in Ec. subst c. cbn [app] in E. injection E as E. exfalso. exact (dbl_shift m 0 rest r Hr E).
  - cbn [app] in E. injection E as E. specialize (IH E). intros [->|K]; [rewrite byte_eqb_refl in Ec; discriminate|exact (IH K)].
Qed.
Lemma name_exact esc n rest us : match rest with [] => True | b :: _ => b <> backtick end ->
  lex esc (quoted_name n ++ rest) = Some (TkName n :: us) -> plain_name n /\ lex esc rest = Some us.
Proof.
  intros Hr H. assert (P : plain_name n).
  - unfold lex in H. unfold quoted_name in H. rewrite <- !app_assoc in H.
    change (str "`" ++ n ++ str "`" ++ rest) with (backtick :: (n ++ backtick :: rest)) in H.
    cbn [length lex_from] in H. change (is_space backtick) with false in H. cbv iota in H. unfold token_of in H.
    change (Byte.eqb backtick quote) with false in H. change (Byte.eqb backtick backtick) with true in H. cbv iota in H.
    destruct (scan_name (n ++ backtick :: rest)) as [[t r]|] eqn:E; [|discriminate].
    destruct (lex_from _ esc r); [|discriminate]. cbn [option_map] in H. injection H as -> _. exact (scan_name_plain _ _ _ Hr E).
  - split; [exact P|]. exact (lx_peel esc _ [TkName n] rest us (lx_name esc n rest P Hr) H).
Qed.

(** ** Tokens of values *)
Definition shape (ts : list token) : Prop :=
  (exists t, ts = [t] /\ t <> TkSym (n2b 45)) \/ (exists t, ts = [TkSym (n2b 45); t]).
Lemma value_shape x ts : value_tokens x ts -> shape ts.
Proof.
  destruct x as [|z|neg s|s|s]; cbn [value_tokens].
  - intros [-> | ->]; left; eexists; (split; [reflexivity|discriminate]).
  - intros (s & _ & ->). unfold minus. destruct (z <? 0)%Z; [right|left]; eexists; [reflexivity|split; [reflexivity|discriminate]].
  - intros ->. unfold minus. destruct neg; [right|left]; eexists; [reflexivity|split; [reflexivity|discriminate]].
  - intros ->. left; eexists; split; [reflexivity|discriminate].
  - intros ->. left; eexists; split; [reflexivity|discriminate].
Qed.
Lemma shape_split a b r r' : shape a -> shape b -> a ++ r = b ++ r' -> a = b /\ r = r'.
Proof.
  intros [(t & -> & Ht)|(t & ->)] [(u & -> & Hu)|(u & ->)] H; cbn [app] in H.
  - injection H as -> ->. split; reflexivity.
  - injection H as -> _. contradiction.
  - injection H as <- _. contradiction.
  - injection H as -> ->. split; reflexivity.
Qed.
Lemma value_tokens_exist x : exists ts, value_tokens x ts.
Proof.
  destruct x; cbn [value_tokens]; try (eexists; reflexivity); [eexists; left; reflexivity|].
  eexists. exists (fmt_n (Z.abs_N z)). split; [apply fmt_n_numeral|reflexivity].
Qed.
Lemma same_text_all x y : same_text x y -> forall ts, value_tokens x ts -> value_tokens y ts.
Proof.
  intros (us & Hx & Hy) ts H.
  assert (ts = us \/ (x = VNull /\ y = VNull)).
  { destruct x as [|z|neg s|s|s]; cbn [value_tokens] in Hx, H.
    - right. split; [reflexivity|]. destruct y as [|z|neg s|s|s]; cbn [value_tokens] in Hy; [reflexivity| | | |].
      + destruct Hy as (s & _ & E). unfold minus in E. destruct (z <? 0)%Z; destruct Hx as [-> | ->]; discriminate.
      + unfold minus in Hy. destruct neg; destruct Hx as [-> | ->]; discriminate.
      + destruct Hx as [-> | ->]; discriminate.
      + destruct Hx as [-> | ->]; discriminate.
    - left. destruct Hx as (s & N1 & ->), H as (s' & N2 & ->). rewrite (numeral_unique _ _ _ N1 N2). reflexivity.
    - left. congruence.
    - left. congruence.
    - left. congruence. }
  destruct H0 as [-> |[-> ->]]; assumption.
Qed.

Lemma cols_tokens_fst ds xs l : cols_tokens ds xs l -> map fst l = ds.
Proof. induction 1 as [|d x ts ds xs l _ _ IH]; [reflexivity|]. cbn. rewrite IH. reflexivity. Qed.
Lemma cols_tokens_shape ds xs l : cols_tokens ds xs l -> Forall (fun p => shape (snd p)) l.
Proof. induction 1 as [|d x ts ds xs l H _ IH]; constructor; [|exact IH]. exact (value_shape _ _ H). Qed.
Lemma agree_intro P ds xs a : cols_tokens ds xs a -> forall ys b, cols_tokens ds ys b ->
  filter (fun p => P (fst p)) a = filter (fun p => P (fst p)) b ->
  Forall (fun p => plain_name (cd_name (fst p))) (filter (fun p => P (fst p)) a) -> agree P ds xs ys.
Proof.
  induction 1 as [|d x ts ds xs a V _ IH]; intros ys b H E F; inversion H as [|? y us ? ys' b' V' H']; subst; [constructor|].
  cbn [filter fst] in E, F. constructor.
  - intros Pd. rewrite Pd in E, F. injection E as -> _. inversion F as [|? ? F1 _]; subst. split; [exact F1|]. exists us. split; assumption.
  - eapply IH; [exact H'| |]; destruct (P d); [injection E as _ E; exact E|exact E|inversion F; assumption|exact F].
Qed.
Lemma agree_elim P ds xs ys : agree P ds xs ys -> forall a, cols_tokens ds xs a ->
  exists b, cols_tokens ds ys b /\ filter (fun p => P (fst p)) a = filter (fun p => P (fst p)) b /\
    Forall (fun p => plain_name (cd_name (fst p))) (filter (fun p => P (fst p)) a).
Proof.
  induction 1 as [|d x y ds xs ys H _ IH]; intros a C; inversion C as [|? ? ts ? ? a' V C']; subst.
  - exists []. split; [constructor|]. split; [reflexivity|constructor].
  - destruct (IH a' C') as (b & B1 & B2 & B3). cbn [filter fst]. destruct (P d) eqn:Pd.
    + destruct (H eq_refl) as [Hn Hs]. exists ((d, ts) :: b). split; [constructor; [exact (same_text_all _ _ Hs _ V)|exact B1]|].
      cbn [filter fst]. rewrite Pd, B2. split; [reflexivity|]. rewrite <- B2. constructor; assumption.
    + destruct (value_tokens_exist y) as (us & U). exists ((d, us) :: b). split; [constructor; assumption|].
      cbn [filter fst]. rewrite Pd. split; assumption.
Qed.
Lemma filter_any {A} (l : list (column_def * A)) : filter (fun p => any_column (fst p)) l = l.
Proof. induction l as [|p l IH]; [reflexivity|]. cbn. rewrite IH. reflexivity. Qed.

(** ** Statements *)
Section Stmts.
  Variables fmt_f32 fmt_f64 : N -> bytes.
  Variable esc : bool.
  Notation cell_ok := (cell_ok fmt_f32 fmt_f64 esc).
  Definition insert_text (db tbl : bytes) (cells : list cell) : bytes :=
    str "INSERT INTO `" ++ db ++ str "`.`" ++ tbl ++ str "` (" ++ joined (str ",") (map (fun c => quoted_name (cd_name (k_def c))) cells)
      ++ str ") VALUES (" ++ joined (str ",") (map k_text cells) ++ str ")".
  Definition delete_text (db tbl : bytes) (keys : list cell) : bytes :=
    str "DELETE FROM `" ++ db ++ str "`.`" ++ tbl ++ str "` WHERE " ++ joined (str " AND ") (map assign keys).
  Definition update_text (db tbl : bytes) (cells keys : list cell) : bytes :=
    str "UPDATE `" ++ db ++ str "`.`" ++ tbl ++ str "` SET " ++ joined (str ", ") (map assign cells)
      ++ str " WHERE " ++ joined (str " AND ") (map assign keys).
  (** the cells of a row of the columns [ds] with the values [xs] *)
  Definition cells_for (ds : list column_def) (xs : list sql_value) (cells : list cell) : Prop :=
    map k_def cells = ds /\ Forall cell_ok cells /\ cols_tokens ds xs (shown cells).
  Notation keycells := (filter (fun c => is_key (k_def c))).

  Lemma firstn_len {A} (l : list A) : firstn (length l) l = l. Proof. apply firstn_all. Qed.
  Theorem insert_texts db tbl r defs xss (ds := present (r_present_bitmap r) defs) :
    Forall2 (fun row xs => row_means fmt_f32 fmt_f64 esc ds (firstn (length ds) row) xs) (r_rows r) xss ->
    exists q stmts, sql_from_insert db tbl r defs = Ok q /\ q_dbname q = db /\ sql_list fmt_f32 fmt_f64 q = Ok stmts /\
      Forall2 (fun xs s => exists cells, cells_for ds xs cells /\ s = insert_text db tbl cells) xss stmts.
  Proof.
    intros Hrows. unfold sql_from_insert. rewrite filter_cols. fold ds. cbn [rbind].
    enough (exists pss stmts, Forall2 (fun row ps => params_of (map col_def_of ds) row = Ok ps) (r_rows r) pss /\
      Forall2 (fun ps s => fill fmt_f32 fmt_f64 (insert_sql_fragments db tbl (map col_def_of ds)) ps = Ok s) pss stmts /\
      Forall2 (fun xs s => exists cells, cells_for ds xs cells /\ s = insert_text db tbl cells) xss stmts) as (pss & stmts & H1 & H2 & H3).
    { rewrite (sequence_forall2 _ _ _ H1). eexists _, stmts. split; [reflexivity|]. split; [reflexivity|].
      split; [apply sequence_forall2; exact H2|exact H3]. }
    induction Hrows as [|row xs rows xss Hrow _ (pss & stmts & H1 & H2 & H3)].
    - exists [], []. split; [constructor|]. split; constructor.
    - rewrite <- (firstn_len ds) in Hrow at 1. destruct (row_cells_first fmt_f32 fmt_f64 esc _ ds row xs Hrow) as (cells & E1 & E2 & E3 & E4 & _).
      rewrite firstn_len in E1, E3, E4.
      exists (map k_param cells :: pss). eexists (_ :: stmts). split; [constructor; assumption|].
      set (head := str "INSERT INTO `" ++ db ++ str "`.`" ++ tbl ++ str "` (" ++
         joined (str ",") (map (fun c => quoted_name (cd_name (k_def c))) cells) ++ str ") VALUES (").
      assert (Hh : head <> str "?") by (apply not_placeholder; unfold head; rewrite app_length; cbn; lia).
      pose proof (filled_values fmt_f32 fmt_f64 cells 0 _ _ _ (cells_texts _ _ _ _ E2) (filled_lit _ _ [] [] [] head (filled_nil _ _) Hh)) as F.
      cbn [Nat.ltb Nat.leb] in F. cbn [app] in F.
      apply (filled_lit _ _ _ _ _ (str ")")) in F; [|discriminate]. apply filled_all in F.
      split.
      + constructor; [|exact H2]. rewrite <- F. f_equal. unfold insert_sql_fragments. rewrite names_joined. cbn [Nat.ltb Nat.leb].
        rewrite !map_length. rewrite <- E1 at 1 2. rewrite map_map, map_length. cbn [app]. reflexivity.
      + constructor; [|exact H3]. exists cells. split; [split; [exact E1|split; assumption]|].
        unfold head, insert_text. rewrite <- !app_assoc. reflexivity.
  Qed.
  Theorem delete_texts db tbl r defs xss (ds := present (r_present_bitmap r) defs) :
    Forall2 (fun row xs => row_means fmt_f32 fmt_f64 esc ds (firstn (length ds) row) xs) (r_rows r) xss ->
    exists q stmts, sql_from_delete db tbl r defs = Ok q /\ q_dbname q = db /\ sql_list fmt_f32 fmt_f64 q = Ok stmts /\
      Forall2 (fun xs s => exists cells, cells_for ds xs cells /\ s = delete_text db tbl (keycells cells)) xss stmts.
  Proof.
    intros Hrows. unfold sql_from_delete. rewrite filter_cols. fold ds. cbn [rbind].
    enough (exists pss stmts, Forall2 (fun row ps => key_params_of (map col_def_of ds) row = Ok ps) (r_rows r) pss /\
      Forall2 (fun ps s => fill fmt_f32 fmt_f64 (delete_sql_fragments db tbl (map col_def_of ds)) ps = Ok s) pss stmts /\
      Forall2 (fun xs s => exists cells, cells_for ds xs cells /\ s = delete_text db tbl (keycells cells)) xss stmts) as (pss & stmts & H1 & H2 & H3).
    { rewrite (sequence_forall2 _ _ _ H1). eexists _, stmts. split; [reflexivity|]. split; [reflexivity|].
      split; [apply sequence_forall2; exact H2|exact H3]. }
    induction Hrows as [|row xs rows xss Hrow _ (pss & stmts & H1 & H2 & H3)].
    - exists [], []. split; [constructor|]. split; constructor.
    - rewrite <- (firstn_len ds) in Hrow at 1. destruct (row_cells_first fmt_f32 fmt_f64 esc _ ds row xs Hrow) as (cells & E1 & E2 & E3 & _ & E4).
      rewrite firstn_len in E1, E3, E4.
      eexists (_ :: pss), (_ :: stmts). split; [constructor; [exact E4|exact H1]|].
      pose proof (filled_where0 fmt_f32 fmt_f64 cells [] (str "DELETE FROM `" ++ db ++ str "`.`" ++ tbl ++ str "` WHERE ") [] []
        ltac:(rewrite app_length; cbn; lia) (cells_texts _ _ _ _ E2) (filled_nil _ _)) as F. apply filled_all in F.
      split.
      + constructor; [|exact H2]. unfold delete_sql_fragments. rewrite <- E1, map_map. exact F.
      + constructor; [|exact H3]. exists cells. split; [split; [exact E1|split; assumption]|].
        unfold delete_text. cbn [app]. rewrite <- !app_assoc. reflexivity.
  Qed.
  Theorem update_texts db tbl u defs xss (ds := present (u_before_present_bitmap u) defs) (ds' := present (u_after_present_bitmap u) defs) :
    Forall2 (fun row xs => row_means fmt_f32 fmt_f64 esc ds (firstn (length ds) (fst row)) (fst xs) /\
                           row_means fmt_f32 fmt_f64 esc ds' (firstn (length ds') (snd row)) (snd xs)) (u_rows u) xss ->
    exists q stmts, sql_from_update db tbl u defs = Ok q /\ q_dbname q = db /\ sql_list fmt_f32 fmt_f64 q = Ok stmts /\
      Forall2 (fun xs s => exists cells cells', cells_for ds (fst xs) cells /\ cells_for ds' (snd xs) cells' /\
        s = update_text db tbl cells' (keycells cells)) xss stmts.
  Proof.
    intros Hrows. unfold sql_from_update. rewrite !filter_cols. fold ds ds'. cbn [rbind].
    match goal with |- context [sequence (map ?f _)] => set (ff := f) end.
    enough (exists pss stmts, Forall2 (fun row ps => ff row = Ok ps) (u_rows u) pss /\
      Forall2 (fun ps s => fill fmt_f32 fmt_f64 (update_sql_fragments db tbl (map col_def_of ds) (map col_def_of ds')) ps = Ok s) pss stmts /\
      Forall2 (fun xs s => exists cells cells', cells_for ds (fst xs) cells /\ cells_for ds' (snd xs) cells' /\
        s = update_text db tbl cells' (keycells cells)) xss stmts) as (pss & stmts & H1 & H2 & H3).
    { rewrite (sequence_forall2 _ _ _ H1). eexists _, stmts. split; [reflexivity|]. split; [reflexivity|].
      split; [apply sequence_forall2; exact H2|exact H3]. }
    induction Hrows as [|row xs rows xss [Hrow Hrow'] _ (pss & stmts & H1 & H2 & H3)].
    - exists [], []. split; [constructor|]. split; constructor.
    - rewrite <- (firstn_len ds) in Hrow at 1. rewrite <- (firstn_len ds') in Hrow' at 1.
      destruct (row_cells_first fmt_f32 fmt_f64 esc _ ds (fst row) (fst xs) Hrow) as (cells & E1 & E2 & E3 & _ & E4).
      destruct (row_cells_first fmt_f32 fmt_f64 esc _ ds' (snd row) (snd xs) Hrow') as (cells' & E1' & E2' & E3' & E4' & _).
      rewrite firstn_len in E1, E3, E4, E1', E3', E4'.
      eexists (_ :: pss), (_ :: stmts). split.
      { constructor; [|exact H1]. unfold ff. rewrite E4'. cbn [rbind]. rewrite E4. reflexivity. }
      pose proof (filled_set0 fmt_f32 fmt_f64 cells' [] (str "UPDATE `" ++ db ++ str "`.`" ++ tbl ++ str "` SET ") [] []
        ltac:(rewrite app_length; cbn; lia) (cells_texts _ _ _ _ E2') (filled_nil _ _)) as F.
      apply (filled_where0 fmt_f32 fmt_f64 cells _ (str " WHERE ")) in F; [|cbn; lia|eapply cells_texts; exact E2]. apply filled_all in F.
      split.
      + constructor; [|exact H2]. unfold update_sql_fragments. rewrite <- E1, <- E1', !map_map. exact F.
      + constructor; [|exact H3]. exists cells, cells'. split; [split; [exact E1|split; assumption]|]. split; [split; [exact E1'|split; assumption]|].
        unfold update_text. cbn [app]. rewrite <- !app_assoc. reflexivity.
  Qed.

  (** ** What the texts are read as *)
  Ltac nospecial := try reflexivity; apply neq_val; discriminate.
  Ltac keyword w := apply (lx_kw esc w); [discriminate|reflexivity|discriminate|discriminate].
  Lemma peel s ts rest us : lx esc s ts rest -> lex esc (s ++ rest) = Some (ts ++ us) -> lex esc rest = Some us.
  Proof. apply lx_peel. Qed.
  Lemma dotted_exact db tbl rest us : match rest with [] => True | b :: _ => b <> backtick end ->
    lex esc ((str "`" ++ db ++ str "`.`" ++ tbl ++ str "`") ++ rest) = Some (dotted db tbl ++ us) ->
    plain_name db /\ plain_name tbl /\ lex esc rest = Some us.
  Proof.
    intros Hr H. replace ((str "`" ++ db ++ str "`.`" ++ tbl ++ str "`") ++ rest) with (quoted_name db ++ [n2b 46] ++ quoted_name tbl ++ rest) in H
      by (unfold quoted_name; rewrite <- !app_assoc; reflexivity).
    change (dotted db tbl ++ us) with (TkName db :: [TkSym (n2b 46)] ++ TkName tbl :: us) in H.
    apply name_exact in H as [Hd H]; [|apply neq_val; discriminate].
    apply (peel [n2b 46] [TkSym (n2b 46)]) in H; [|apply lx_sym; nospecial].
    apply name_exact in H as [Ht H]; [|exact Hr]. split; [exact Hd|]. split; assumption.
  Qed.
  Definition like (cells : list cell) (l : list (column_def * list token)) : Prop :=
    map k_def cells = map fst l /\ Forall cell_ok cells /\ Forall (fun c => shape (k_tokens c)) cells /\ Forall (fun p => shape (snd p)) l.
  Lemma like_cons c cells d ts l : like (c :: cells) ((d, ts) :: l) ->
    k_def c = d /\ cell_ok c /\ shape (k_tokens c) /\ shape ts /\ like cells l.
  Proof.
    intros (E & F & S1 & S2). cbn in E. injection E as E1 E2. inversion F; inversion S1; inversion S2; subst. unfold like. intuition.
  Qed.
  Lemma assign_exact c ts rest us : cell_ok c -> shape (k_tokens c) -> shape ts -> delimited rest ->
    lex esc (assign c ++ rest) = Some (equals (cd_name (k_def c), ts) ++ us) ->
    plain_name (cd_name (k_def c)) /\ k_tokens c = ts /\ lex esc rest = Some us.
  Proof.
    intros [_ R] S1 S2 Hr H.
    replace (assign c ++ rest) with (quoted_name (cd_name (k_def c)) ++ str " " ++ [n2b 61] ++ str " " ++ k_text c ++ rest) in H
      by (unfold assign, quoted_name; rewrite <- !app_assoc; reflexivity).
    change (equals (cd_name (k_def c), ts) ++ us) with (TkName (cd_name (k_def c)) :: [] ++ [TkSym (n2b 61)] ++ [] ++ ts ++ us) in H.
    apply name_exact in H as [Hn H]; [|apply neq_val; discriminate]. split; [exact Hn|].
    apply (peel (str " ") []) in H; [|apply lx_space].
    apply (peel [n2b 61] [TkSym (n2b 61)]) in H; [|apply lx_sym; nospecial].
    apply (peel (str " ") []) in H; [|apply lx_space].
    rewrite (R rest Hr) in H. destruct (lex esc rest) as [vs|]; [|discriminate]. cbn [option_map] in H. injection H as H.
    apply shape_split in H as [E1 E2]; [|assumption|assumption]. subst. split; reflexivity.
  Qed.
  Section Lists.
    Variables (sep : bytes) (tsep : list token).
    Hypothesis Hsep : forall r, delimited (sep ++ r).
    Hypothesis Lsep : forall r, lx esc sep tsep r.
    Lemma more_delimited {A} (f : A -> bytes) l rest : delimited rest -> delimited (flat_map (fun y => sep ++ y) (map f l) ++ rest).
    Proof. destruct l as [|a l]; intros H; [exact H|]. cbn [map flat_map]. rewrite <- !app_assoc. apply Hsep. Qed.
    Lemma assigns_more cells : forall l rest us, like cells l -> delimited rest ->
      lex esc (flat_map (fun y => sep ++ y) (map assign cells) ++ rest) = Some (flat_map (fun y => tsep ++ y) (map equals (named l)) ++ us) ->
      Forall (fun c => plain_name (cd_name (k_def c))) cells /\ shown cells = l /\ lex esc rest = Some us.
    Proof.
      induction cells as [|c cells IH]; intros [|[d ts] l] rest us K Hr H; try (destruct K as (K & _); discriminate).
      - split; [constructor|]. split; [reflexivity|exact H].
      - apply like_cons in K as (<- & Hc & S1 & S2 & K). cbn [map named flat_map fst snd] in H. rewrite <- !app_assoc in H.
        apply (peel sep tsep) in H; [|apply Lsep].
        apply assign_exact in H as (Hn & Ht & H); [|assumption|assumption|assumption|apply more_delimited; exact Hr].
        apply IH in H as (F & E & H); [|exact K|exact Hr]. split; [constructor; assumption|]. split; [|exact H].
        cbn [shown map]. unfold shown in E. rewrite E, Ht. reflexivity.
    Qed.
    Lemma assigns_exact cells l rest us : like cells l -> delimited rest ->
      lex esc (joined sep (map assign cells) ++ rest) = Some (sep_by tsep (map equals (named l)) ++ us) ->
      Forall (fun c => plain_name (cd_name (k_def c))) cells /\ shown cells = l /\ lex esc rest = Some us.
    Proof.
      destruct cells as [|c cells], l as [|[d ts] l]; intros K Hr H; try (destruct K as (K & _); discriminate).
      - split; [constructor|]. split; [reflexivity|exact H].
      - apply like_cons in K as (<- & Hc & S1 & S2 & K). cbn [map named joined sep_by fst snd] in H. rewrite <- !app_assoc in H.
        apply assign_exact in H as (Hn & Ht & H); [|assumption|assumption|assumption|apply more_delimited; exact Hr].
        apply assigns_more in H as (F & E & H); [|exact K|exact Hr]. split; [constructor; assumption|]. split; [|exact H].
        cbn [shown map]. unfold shown in E. rewrite E, Ht. reflexivity.
    Qed.
  End Lists.
  Definition unticked (rest : bytes) : Prop := match rest with [] => True | b :: _ => b <> backtick end.
  Lemma comma_lx r : lx esc (str ",") comma r. Proof. apply (lx_sym esc (n2b 44)); nospecial. Qed.
  Lemma names_more (ns : list bytes) : forall rest us, unticked rest ->
    lex esc (flat_map (fun y => str "," ++ y) (map quoted_name ns) ++ rest) = Some (flat_map (fun y => comma ++ y) (map (fun n => [TkName n]) ns) ++ us) ->
    Forall plain_name ns /\ lex esc rest = Some us.
  Proof.
    induction ns as [|n ns IH]; intros rest us Hr H; [split; [constructor|exact H]|].
    cbn [map flat_map] in H. rewrite <- !app_assoc in H. apply (peel (str ",") comma) in H; [|apply comma_lx].
    cbn [app] in H. apply name_exact in H as [Hn H]; [|destruct ns; [exact Hr|apply neq_val; discriminate]].
    apply IH in H as [F H]; [|exact Hr]. split; [constructor; assumption|exact H].
  Qed.
  Lemma names_exact (ns : list bytes) rest us : unticked rest ->
    lex esc (joined (str ",") (map quoted_name ns) ++ rest) = Some (sep_by comma (map (fun n => [TkName n]) ns) ++ us) ->
    Forall plain_name ns /\ lex esc rest = Some us.
  Proof.
    destruct ns as [|n ns]; intros Hr H; [split; [constructor|exact H]|].
    cbn [map joined sep_by] in H. rewrite <- !app_assoc in H.
    cbn [app] in H. apply name_exact in H as [Hn H]; [|destruct ns; [exact Hr|apply neq_val; discriminate]].
    apply names_more in H as [F H]; [|exact Hr]. split; [constructor; assumption|exact H].
  Qed.
  Lemma comma_delimited r : delimited (str "," ++ r). Proof. right; right; left; reflexivity. Qed.
  Lemma values_more cells : forall l rest us, like cells l -> delimited rest ->
    lex esc (flat_map (fun y => str "," ++ y) (map k_text cells) ++ rest) = Some (flat_map (fun y => comma ++ y) (map snd (named l)) ++ us) ->
    shown cells = l /\ lex esc rest = Some us.
  Proof.
    induction cells as [|c cells IH]; intros [|[d ts] l] rest us K Hr H; try (destruct K as (K & _); discriminate).
    - split; [reflexivity|exact H].
    - apply like_cons in K as (<- & [_ R] & S1 & S2 & K). cbn [map named flat_map fst snd] in H. rewrite <- !app_assoc in H.
      apply (peel (str ",") comma) in H; [|apply comma_lx].
      rewrite R in H by (apply (more_delimited (str ",") comma_delimited); exact Hr).
      destruct (lex esc (flat_map _ _ ++ rest)) as [vs|] eqn:L; [|discriminate]. cbn [option_map] in H. injection H as H.
      apply shape_split in H as [E1 E2]; [|assumption|assumption]. subst vs. apply IH in L as [E L]; [|exact K|exact Hr].
      split; [|exact L]. cbn [shown map]. unfold shown in E. rewrite E, E1. reflexivity.
  Qed.
  Lemma values_exact cells l rest us : like cells l -> delimited rest ->
    lex esc (joined (str ",") (map k_text cells) ++ rest) = Some (sep_by comma (map snd (named l)) ++ us) ->
    shown cells = l /\ lex esc rest = Some us.
  Proof.
    destruct cells as [|c cells], l as [|[d ts] l]; intros K Hr H; try (destruct K as (K & _); discriminate).
    - split; [reflexivity|exact H].
    - apply like_cons in K as (<- & [_ R] & S1 & S2 & K). cbn [map named joined sep_by fst snd] in H. rewrite <- !app_assoc in H.
      rewrite R in H by (apply (more_delimited (str ",") comma_delimited); exact Hr).
      destruct (lex esc (flat_map _ _ ++ rest)) as [vs|] eqn:L; [|discriminate]. cbn [option_map] in H. injection H as H.
      apply shape_split in H as [E1 E2]; [|assumption|assumption]. subst vs. apply values_more in L as [E L]; [|exact K|exact Hr].
      split; [|exact L]. cbn [shown map]. unfold shown in E. rewrite E, E1. reflexivity.
  Qed.
  Lemma shown_shape cells : Forall (fun p => shape (snd p)) (shown cells) -> Forall (fun c => shape (k_tokens c)) cells.
  Proof. unfold shown. rewrite Forall_map. exact (fun H => H). Qed.
  Lemma like_of ds xs ys cells l : cells_for ds xs cells -> cols_tokens ds ys l -> like cells l.
  Proof.
    intros (E1 & E2 & E3) H. split; [rewrite E1, (cols_tokens_fst _ _ _ H); reflexivity|]. split; [exact E2|].
    split; [apply shown_shape; exact (cols_tokens_shape _ _ _ E3)|exact (cols_tokens_shape _ _ _ H)].
  Qed.
  Lemma like_keys cells l : like cells l -> like (keycells cells) (keys_of l).
  Proof.
    intros (E & F & S1 & S2). split; [|split; [apply filter_Forall; exact F|split; apply filter_Forall; assumption]].
    clear F S1 S2. revert l E. induction cells as [|c cells IH]; intros [|[d ts] l] E; try discriminate; [reflexivity|].
    cbn in E. injection E as <- E. unfold keys_of in *. cbn [filter fst]. destruct (is_key (k_def c)); cbn [map fst]; rewrite (IH l E); reflexivity.
  Qed.
  Lemma named_fst l : map (fun p : bytes * list token => [TkName (fst p)]) (named l) = map (fun n => [TkName n]) (map (fun p => cd_name (fst p)) l).
  Proof. unfold named. rewrite !map_map. reflexivity. Qed.
  Lemma plain_shown cells : Forall (fun c => plain_name (cd_name (k_def c))) cells <-> Forall (fun p => plain_name (cd_name (fst p))) (shown cells).
  Proof. unfold shown. rewrite Forall_map. reflexivity. Qed.

  Theorem insert_exact db tbl ds xs ys cells : cells_for ds xs cells ->
    (inserts esc db tbl ds ys (insert_text db tbl cells) <-> plain_name db /\ plain_name tbl /\ agree any_column ds xs ys).
  Proof.
    intros C. split.
    - intros (l & Hl & H). pose proof (like_of _ _ _ _ _ C Hl) as K.
      replace (insert_text db tbl cells) with (str "INSERT " ++ str "INTO " ++ (str "`" ++ db ++ str "`.`" ++ tbl ++ str "`") ++ str " " ++ str "(" ++
            joined (str ",") (map quoted_name (map (fun c => cd_name (k_def c)) cells)) ++ str ")" ++ str " " ++ str "VALUES " ++ str "(" ++
            joined (str ",") (map k_text cells) ++ str ")") in H by (unfold insert_text; rewrite map_map, <- !app_assoc; reflexivity).
      unfold insert_tokens in H. rewrite named_fst in H.
      change ([TkWord (str "INSERT"); TkWord (str "INTO")] ++ ?x) with ([TkWord (str "INSERT")] ++ [TkWord (str "INTO")] ++ x) in H.
      change ([TkSym (n2b 41); TkWord (str "VALUES"); TkSym (n2b 40)] ++ ?x) with ([TkSym (n2b 41)] ++ [] ++ [TkWord (str "VALUES")] ++ [TkSym (n2b 40)] ++ x) in H.
      apply peel in H; [|keyword (str "INSERT")]. apply peel in H; [|keyword (str "INTO")].
      apply dotted_exact in H as (Hd & Ht & H); [|apply neq_val; discriminate]. split; [exact Hd|]. split; [exact Ht|].
      apply (peel (str " ") []) in H; [|apply lx_space].
      apply (peel (str "(") [TkSym (n2b 40)]) in H; [|apply lx_sym; nospecial].
      assert (En : map (fun p : column_def * list token => cd_name (fst p)) l = map (fun c => cd_name (k_def c)) cells).
      { destruct K as (K & _). rewrite <- (map_map fst cd_name), <- K, map_map. reflexivity. }
      rewrite En in H. apply names_exact in H as [Hn H]; [|apply neq_val; discriminate].
      apply (peel (str ")") [TkSym (n2b 41)]) in H; [|apply lx_sym; nospecial].
      apply (peel (str " ") []) in H; [|apply lx_space]. apply peel in H; [|keyword (str "VALUES")].
      apply (peel (str "(") [TkSym (n2b 40)]) in H; [|apply lx_sym; nospecial].
      apply values_exact in H as [E _]; [|exact K|right; left; reflexivity].
      eapply agree_intro; [exact (proj2 (proj2 C))|exact Hl|rewrite E; reflexivity|]. rewrite filter_any. apply plain_shown.
      rewrite Forall_map in Hn. exact Hn.
    - intros (Hd & Ht & A). destruct C as (E1 & E2 & E3). destruct (agree_elim _ _ _ _ A _ E3) as (b & B1 & B2 & B3).
      rewrite !filter_any in B2. rewrite filter_any in B3. exists b. split; [exact B1|]. rewrite <- B2.
      apply (insert_read fmt_f32 fmt_f64); [exact Hd|exact Ht|apply plain_shown; exact B3|exact E2].
  Qed.
  Theorem delete_exact db tbl ds xs ys cells : cells_for ds xs cells ->
    (deletes esc db tbl ds ys (delete_text db tbl (keycells cells)) <-> plain_name db /\ plain_name tbl /\ agree is_key ds xs ys).
  Proof.
    intros C. split.
    - intros (l & Hl & H). pose proof (like_keys _ _ (like_of _ _ _ _ _ C Hl)) as K. rewrite <- (app_nil_r (delete_text _ _ _)) in H.
      replace (delete_text db tbl (keycells cells) ++ []) with (str "DELETE " ++ str "FROM " ++ (str "`" ++ db ++ str "`.`" ++ tbl ++ str "`") ++ str " " ++ str "WHERE " ++
        joined (str " AND ") (map assign (keycells cells)) ++ []) in H by (unfold delete_text; rewrite <- !app_assoc; reflexivity).
      unfold delete_tokens in H.
      change ([TkWord (str "DELETE"); TkWord (str "FROM")] ++ ?x) with ([TkWord (str "DELETE")] ++ [TkWord (str "FROM")] ++ x) in H.
      apply peel in H; [|keyword (str "DELETE")]. apply peel in H; [|keyword (str "FROM")].
      apply dotted_exact in H as (Hd & Ht & H); [|apply neq_val; discriminate]. split; [exact Hd|]. split; [exact Ht|].
      apply (peel (str " ") []) in H; [|apply lx_space]. apply peel in H; [|keyword (str "WHERE")].
      rewrite <- (app_nil_r (sep_by _ _)) in H.
      apply (assigns_exact (str " AND ") [TkWord (str "AND")] sep_and (fun r => lx_and esc r)) in H as (Hn & E & _); [|exact K|exact I].
      eapply agree_intro; [exact (proj2 (proj2 C))|exact Hl| |].
      + change (keys_of (shown cells) = keys_of l). rewrite keys_shown. exact E.
      + change (Forall (fun p => plain_name (cd_name (fst p))) (keys_of (shown cells))). rewrite keys_shown. apply plain_shown. exact Hn.
    - intros (Hd & Ht & A). destruct C as (E1 & E2 & E3). destruct (agree_elim _ _ _ _ A _ E3) as (b & B1 & B2 & B3).
      exists b. split; [exact B1|]. change (keys_of (shown cells) = keys_of b) in B2. rewrite <- B2.
      change (Forall (fun p => plain_name (cd_name (fst p))) (keys_of (shown cells))) in B3. rewrite keys_shown in B3 |- *.
      apply (delete_read fmt_f32 fmt_f64); [exact Hd|exact Ht|apply plain_shown; exact B3|apply filter_Forall; exact E2].
  Qed.
  Theorem update_exact db tbl ds ds' xs xs' ys ys' cells cells' : cells_for ds xs cells -> cells_for ds' xs' cells' ->
    (updates esc db tbl ds ds' ys ys' (update_text db tbl cells' (keycells cells)) <->
     plain_name db /\ plain_name tbl /\ agree any_column ds' xs' ys' /\ agree is_key ds xs ys).
  Proof.
    intros C C'. split.
    - intros (l & l' & Hl & Hl' & H). pose proof (like_keys _ _ (like_of _ _ _ _ _ C Hl)) as K. pose proof (like_of _ _ _ _ _ C' Hl') as K'.
      rewrite <- (app_nil_r (update_text _ _ _ _)) in H.
      replace (update_text db tbl cells' (keycells cells) ++ []) with (str "UPDATE " ++ (str "`" ++ db ++ str "`.`" ++ tbl ++ str "`") ++ str " " ++ str "SET " ++
        joined (str ", ") (map assign cells') ++ str " " ++ str "WHERE " ++ joined (str " AND ") (map assign (keycells cells)) ++ []) in H
        by (unfold update_text; rewrite <- !app_assoc; reflexivity).
      unfold update_tokens in H.
      apply peel in H; [|keyword (str "UPDATE")].
      apply dotted_exact in H as (Hd & Ht & H); [|apply neq_val; discriminate]. split; [exact Hd|]. split; [exact Ht|].
      apply (peel (str " ") []) in H; [|apply lx_space]. apply peel in H; [|keyword (str "SET")].
      apply (assigns_exact (str ", ") comma sep_comma (fun r => lx_comma_space esc r)) in H as (Hn & E & H); [|exact K'|left; reflexivity].
      apply (peel (str " ") []) in H; [|apply lx_space]. apply peel in H; [|keyword (str "WHERE")].
      rewrite <- (app_nil_r (sep_by _ _)) in H.
      apply (assigns_exact (str " AND ") [TkWord (str "AND")] sep_and (fun r => lx_and esc r)) in H as (Hn2 & E2 & _); [|exact K|exact I].
      split.
      + eapply agree_intro; [exact (proj2 (proj2 C'))|exact Hl'|rewrite E; reflexivity|]. rewrite filter_any. apply plain_shown. exact Hn.
      + eapply agree_intro; [exact (proj2 (proj2 C))|exact Hl| |].
        * change (keys_of (shown cells) = keys_of l). rewrite keys_shown. exact E2.
        * change (Forall (fun p => plain_name (cd_name (fst p))) (keys_of (shown cells))). rewrite keys_shown. apply plain_shown. exact Hn2.
    - intros (Hd & Ht & A' & A). destruct C as (E1 & E2 & E3). destruct C' as (E1' & E2' & E3').
      destruct (agree_elim _ _ _ _ A _ E3) as (b & B1 & B2 & B3). destruct (agree_elim _ _ _ _ A' _ E3') as (b' & B1' & B2' & B3').
      rewrite !filter_any in B2'. rewrite filter_any in B3'.
      exists b, b'. split; [exact B1|]. split; [exact B1'|]. rewrite <- B2'. change (keys_of (shown cells) = keys_of b) in B2. rewrite <- B2.
      change (Forall (fun p => plain_name (cd_name (fst p))) (keys_of (shown cells))) in B3. rewrite keys_shown in B3 |- *.
      apply (update_read fmt_f32 fmt_f64); [exact Hd|exact Ht|apply plain_shown; exact B3'|apply plain_shown; exact B3|exact E2'|apply filter_Forall; exact E2].
  Qed.
End Stmts.

(** ** Gaps *)
Lemma no_gap n bitmap : (exists k, forall i, (i < n)%nat -> bit bitmap i = (i <? k)%nat) <-> ~ gap bitmap n.
Proof.
  split.
  - intros (k & H) (i & j & L & Bi & Bj). rewrite H in Bi by lia. rewrite H in Bj by lia.
    apply Nat.ltb_ge in Bi. apply Nat.ltb_lt in Bj. lia.
  - induction n as [|n IH]; intros G; [exists O; intros; lia|].
    destruct IH as (k & Hk); [intros (i & j & L & B); apply G; exists i, j; split; [lia|exact B]|].
    destruct (Nat.leb_spec n k) as [L|L].
    + exists (if bit bitmap n then S n else n). intros i Hi. destruct (Nat.eq_dec i n) as [->|Ne].
      * destruct (bit bitmap n); symmetry; [apply Nat.ltb_lt|apply Nat.ltb_ge]; lia.
      * rewrite Hk by lia. destruct (bit bitmap n); destruct (Nat.ltb_spec i k); symmetry; first [apply Nat.ltb_lt|apply Nat.ltb_ge]; lia.
    + exists k. intros i Hi. destruct (Nat.eq_dec i n) as [->|Ne]; [|apply Hk; lia].
      destruct (bit bitmap n) eqn:Bn; [|symmetry; apply Nat.ltb_ge; lia]. exfalso. apply G. exists k, n. split; [lia|]. split; [|exact Bn].
      rewrite Hk by lia. apply Nat.ltb_ge. lia.
Qed.
Definition gap_from (bitmap : bytes) (i n : nat) : Prop :=
  exists a b, (i <= a < b)%nat /\ (b < i + n)%nat /\ bit bitmap a = false /\ bit bitmap b = true.
Lemma present_later {A} bitmap (l : list A) : forall i b, (i <= b < i + length l)%nat -> bit bitmap b = true ->
  exists a l', present_from bitmap i l = a :: l'.
Proof.
  induction l as [|a l IH]; intros i b H B; cbn [length] in H; [lia|]. cbn [present_from].
  destruct (bit bitmap i) eqn:Bi; [eexists _, _; reflexivity|]. apply (IH (S i) b); [|exact B].
  assert (b <> i) by (intros ->; congruence). lia.
Qed.
Lemma gap_step bitmap i n : gap_from bitmap i (S n) -> bit bitmap i = true -> gap_from bitmap (S i) n.
Proof. intros (a & b & H1 & H2 & A & B) Bi. exists a, b. assert (a <> i) by (intros ->; congruence). repeat split; try assumption; lia. Qed.
(** at the first absent column a value and a NULL are paired up *)
Lemma gap_pairs bitmap : forall (defs : list column_def) (row : list binlog_value) i,
  length row = length defs -> (forall k v, nth_error row k = Some v -> bit bitmap (i + k) = false -> v = LNull) -> gap_from bitmap i (length defs) ->
  exists p v, nth_error (firstn (length (present_from bitmap i defs)) row) p = Some LNull /\ nth_error (present_from bitmap i row) p = Some v.
Proof.
  induction defs as [|d defs IH]; intros [|v row] i L N G; try discriminate.
  - destruct G as (a & b & H1 & H2 & _). cbn [length] in H2. lia.
  - cbn [length] in L. injection L as L. cbn [present_from]. destruct (bit bitmap i) eqn:Bi.
    + destruct (IH row (S i) L) as (p & w & P1 & P2).
      * intros k u Hk Hb. apply (N (S k) u Hk). rewrite Nat.add_succ_r. exact Hb.
      * exact (gap_step _ _ _ G Bi).
      * exists (S p), w. split; assumption.
    + assert (v = LNull) as -> by (apply (N O v eq_refl); rewrite Nat.add_0_r; exact Bi).
      destruct G as (a & b & H1 & H2 & A & B). cbn [length] in H2.
      destruct (present_later bitmap defs (S i) b) as (e & l' & E); [lia|exact B|].
      destruct (present_later bitmap row (S i) b) as (w & l2 & E2); [lia|exact B|].
      exists O, w. rewrite E, E2. split; reflexivity.
Qed.
Lemma row_means_nth fmt_f32 fmt_f64 esc ds vs xs : row_means fmt_f32 fmt_f64 esc ds vs xs -> forall p v, nth_error vs p = Some v ->
  exists d x, nth_error ds p = Some d /\ nth_error xs p = Some x /\ logged fmt_f32 fmt_f64 (is_unsigned d) v x.
Proof.
  induction 1 as [|d v x ds vs xs Lg _ _ IH]; intros [|p] w H; try discriminate; [|exact (IH p w H)].
  injection H as <-. exists d, x. split; [reflexivity|]. split; [reflexivity|exact Lg].
Qed.
Lemma row_logged_nth fmt_f32 fmt_f64 ds vs xs : row_logged fmt_f32 fmt_f64 ds vs xs -> forall p v, nth_error vs p = Some v ->
  exists d x, nth_error ds p = Some d /\ nth_error xs p = Some x /\ logged fmt_f32 fmt_f64 (is_unsigned d) v x.
Proof.
  induction 1 as [|d v x ds vs xs Lg _ IH]; intros [|p] w H; try discriminate; [|exact (IH p w H)].
  injection H as <-. exists d, x. split; [reflexivity|]. split; [reflexivity|exact Lg].
Qed.
Lemma json_readable_nth widen fmt_f32 fmt_f64 ds vs xs : json_readable widen fmt_f32 fmt_f64 ds vs xs -> forall p v, nth_error vs p = Some v ->
  exists d x, nth_error ds p = Some d /\ nth_error xs p = Some x /\ logged fmt_f32 fmt_f64 (is_unsigned d) v x.
Proof.
  induction 1 as [|d v x ds vs xs Lg _ _ IH]; intros [|p] w H; try discriminate; [|exact (IH p w H)].
  injection H as <-. exists d, x. split; [reflexivity|]. split; [reflexivity|exact Lg].
Qed.
Lemma agree_nth P ds xs ys : agree P ds xs ys -> forall p d x y, nth_error ds p = Some d -> nth_error xs p = Some x -> nth_error ys p = Some y ->
  P d = true -> plain_name (cd_name d) /\ same_text x y.
Proof.
  induction 1 as [|d x y ds xs ys H _ IH]; intros [|p] e u w He Hu Hw; try discriminate; [|exact (IH p e u w He Hu Hw)].
  injection He as <-. injection Hu as <-. injection Hw as <-. exact H.
Qed.
Lemma logged_null fmt_f32 fmt_f64 u x : logged fmt_f32 fmt_f64 u LNull x -> x = VNull.
Proof. inversion 1. reflexivity. Qed.
Lemma logged_vnull fmt_f32 fmt_f64 u v : logged fmt_f32 fmt_f64 u v VNull -> v = LNull.
Proof. inversion 1. reflexivity. Qed.
Lemma same_text_null y : same_text VNull y -> y = VNull.
Proof.
  intros (ts & H1 & H2). destruct y as [|z|neg s|s|s]; cbn [value_tokens] in *; [reflexivity| | | |].
  - destruct H2 as (s & _ & E). unfold minus in E. destruct (z <? 0)%Z; destruct H1 as [-> | ->]; discriminate.
  - unfold minus in H2. destruct neg; destruct H1 as [-> | ->]; discriminate.
  - destruct H1 as [-> | ->]; discriminate.
  - destruct H1 as [-> | ->]; discriminate.
Qed.
Lemma gap_gap bitmap n : gap bitmap n -> gap_from bitmap 0 n.
Proof. intros (i & j & L & A & B). exists i, j. repeat split; try assumption; lia. Qed.
Theorem gap_disagrees fmt_f32 fmt_f64 esc bitmap defs row xs ys (ds := present bitmap defs) :
  gap bitmap (length defs) -> length row = length defs -> absent_null bitmap row -> ~ In LNull (present bitmap row) ->
  row_means fmt_f32 fmt_f64 esc ds (firstn (length ds) row) xs -> row_logged fmt_f32 fmt_f64 ds (present bitmap row) ys ->
  ~ agree any_column ds xs ys.
Proof.
  intros G L N NN Hx Hy A. destruct (gap_pairs bitmap defs row 0 L N (gap_gap _ _ G)) as (p & v & P1 & P2).
  destruct (row_means_nth _ _ _ _ _ _ Hx p LNull P1) as (d & x & D1 & X1 & Lx). destruct (row_logged_nth _ _ _ _ _ Hy p v P2) as (d' & y & D2 & Y1 & Ly).
  apply logged_null in Lx. subst x. destruct (agree_nth _ _ _ _ A p d VNull y D1 X1 Y1 eq_refl) as [_ S]. apply same_text_null in S. subst y.
  apply logged_vnull in Ly. subst v. apply NN. exact (nth_error_In _ _ P2).
Qed.

(** ** Documents *)
Section Json.
  Variable widen : N -> N.
  Variables fmt_f32 fmt_f64 : N -> bytes.
  Lemma NoDup_present (l : list column_def) bitmap : NoDup (map cd_name l) -> forall i, NoDup (map cd_name (present_from bitmap i l)).
  Proof.
    induction l as [|d l IH]; intros N i; [constructor|]. cbn [map] in N. inversion N as [|? ? N1 N2]; subst. cbn [present_from].
    destruct (bit bitmap i); [|apply IH; exact N2]. cbn [map]. constructor; [|apply IH; exact N2].
    intros K. apply N1. apply in_map_iff in K as (e & E & K). apply in_map_iff. exists e. split; [exact E|].
    revert K. generalize (S i). clear. induction l as [|a l IH]; intros i K; [destruct K|]. cbn [present_from] in K.
    destruct (bit bitmap i); [destruct K as [->|K]; [left; reflexivity|]|]; right; eapply IH; exact K.
  Qed.
  Lemma entries_names ds vs xs es : json_entries widen fmt_f32 fmt_f64 ds vs xs es -> map fst es = map cd_name ds.
  Proof. induction 1 as [|d v x j ds vs xs es _ _ _ IH]; [reflexivity|]. cbn. rewrite IH. reflexivity. Qed.
  Lemma perm_same_keys (a : list (bytes * json_value)) : forall b, NoDup (map fst a) -> map fst a = map fst b -> Permutation a b -> a = b.
  Proof.
    induction a as [|[n j] a IH]; intros [|[n' j'] b] N E P; try discriminate; [reflexivity|]. cbn in E. injection E as <- E.
    cbn in N. inversion N as [|? ? N1 N2]; subst.
    assert (I : In (n, j) ((n, j') :: b)) by (eapply Permutation_in; [exact P|left; reflexivity]).
    destruct I as [I|I]; [|exfalso; apply N1; rewrite E; change n with (fst (n, j)); apply in_map; exact I].
    injection I as <-. f_equal. apply IH; [exact N2|exact E|]. exact (Permutation_cons_inv P).
  Qed.
  Lemma means_unique u v x j1 j2 : logged fmt_f32 fmt_f64 u v x -> (forall bs, x <> VBinary bs) ->
    json_means widen v x j1 -> json_means widen v x j2 -> j1 = j2.
  Proof. intros L X. destruct L; cbn [json_means]; try congruence. exfalso. eapply X. reflexivity. Qed.
  Lemma same_json_means u u' v x v' y j : logged fmt_f32 fmt_f64 u v x -> logged fmt_f32 fmt_f64 u' v' y -> same_json widen v x v' y ->
    json_means widen v x j -> json_means widen v' y j.
  Proof.
    intros L L' ((i & M1 & M2) & [B1 B2]) M.
    assert (D : (exists bs, x = VBinary bs) \/ (forall bs, x <> VBinary bs)) by (destruct x; try (right; discriminate); left; eexists; reflexivity).
    destruct D as [(bs & ->)|D].
    - destruct (B1 (ex_intro _ bs eq_refl)) as (bs' & ->). inversion L; subst. inversion L'; subst. cbn [json_means] in *.
      destruct M1 as (e & E1 & ->), M2 as (e' & E2 & E3). injection E3 as <-. rewrite E1 in E2. injection E2 as <-. exact M.
    - rewrite (means_unique _ _ _ _ _ L D M M1). exact M2.
  Qed.
  Lemma binary_dec (x : sql_value) : (exists bs, x = VBinary bs) \/ (forall bs, x <> VBinary bs).
  Proof. destruct x; try (right; discriminate). left. eexists. reflexivity. Qed.
  Lemma binary_names_incl ds xs ns : binary_names ds xs ns -> incl ns (map cd_name ds).
  Proof.
    induction 1 as [|d bs ds xs ns _ IH|d x ds xs ns _ _ IH]; [intros ? []| |].
    - intros n [<-|K]; [left; reflexivity|right; apply IH, K].
    - intros n K. right. apply IH, K.
  Qed.
  Lemma agree_json ds vs xs es : json_entries widen fmt_f32 fmt_f64 ds vs xs es -> NoDup (map cd_name ds) -> forall ns, binary_names ds xs ns ->
    forall vs' ys, json_entries widen fmt_f32 fmt_f64 ds vs' ys es /\ binary_names ds ys ns <-> json_agree widen fmt_f32 fmt_f64 ds vs xs vs' ys.
  Proof.
    induction 1 as [|d v x j ds vs xs es Lg M E IH]; intros N ns B vs' ys.
    - inversion B; subst. split; [intros [H _]; inversion H; subst; constructor|intros H; inversion H; subst; split; constructor].
    - cbn [map] in N. inversion N as [|? ? N1 N2]; subst. split.
      + intros [H K]. inversion H as [|? v' y ? ? ? ? ? Ly My Ey]; subst.
        inversion B as [|? bs ? ? ns1 B1|? ? ? ? ? X1 B1]; subst; inversion K as [|? bs' ? ? ns2 K1|? ? ? ? ? Y1 K1]; subst.
        * constructor; [exact Ly| |apply (IH N2 _ B1); split; assumption]. split; [exists j; split; assumption|]. split; intros _; eexists; reflexivity.
        * exfalso. apply N1. apply (binary_names_incl _ _ _ K1). left. reflexivity.
        * exfalso. apply N1. apply (binary_names_incl _ _ _ B1). left. reflexivity.
        * constructor; [exact Ly| |apply (IH N2 _ B1); split; assumption]. split; [exists j; split; assumption|].
          split; intros (bs & ->); [destruct (X1 bs eq_refl)|destruct (Y1 bs eq_refl)].
      + intros H. inversion H as [|? ? ? v' y ? ? ? ? ? Ly S A]; subst.
        inversion B as [|? bs ? ? ns1 B1|? ? ? ? ? X1 B1]; subst; apply (IH N2 _ B1) in A as [A1 A2];
          (split; [constructor; [exact Ly|exact (same_json_means _ _ _ _ _ _ _ Lg Ly S M)|exact A1]|]).
        * destruct S as (_ & [S1 _]). destruct (S1 (ex_intro _ bs eq_refl)) as (bs' & ->). constructor. exact A2.
        * constructor; [|exact A2]. intros bs ->. destruct S as (_ & [_ S2]). destruct (S2 (ex_intro _ bs eq_refl)) as (bs' & ->). exact (X1 bs' eq_refl).
  Qed.
  Lemma object_exact ds vs xs m : NoDup (map cd_name ds) -> row_object widen fmt_f32 fmt_f64 ds vs xs m -> forall ns, binary_names ds xs ns ->
    forall vs' ys, row_object widen fmt_f32 fmt_f64 ds vs' ys m /\ binary_names ds ys ns <-> json_agree widen fmt_f32 fmt_f64 ds vs xs vs' ys.
  Proof.
    intros N (es & E & P & S) ns B vs' ys. rewrite <- (agree_json _ _ _ _ E N _ B). split.
    - intros [(es' & E' & P' & S') K]. split; [|exact K].
      assert (es = es') as <-; [|exact E'].
      apply perm_same_keys; [rewrite (entries_names _ _ _ _ E); exact N|rewrite (entries_names _ _ _ _ E), (entries_names _ _ _ _ E'); reflexivity|].
      rewrite <- P. exact P'.
    - intros [E' K]. split; [|exact K]. exists es. split; [exact E'|split; assumption].
  Qed.
  Theorem insert_docs db tbl r defs xss (ds := present (r_present_bitmap r) defs) : NoDup (map cd_name defs) ->
    Forall2 (fun row xs => json_readable widen fmt_f32 fmt_f64 ds (firstn (length ds) row) xs) (r_rows r) xss ->
    exists docs, json_from_insert widen db tbl r defs = Ok docs /\
      forall3 (fun row xs doc => forall vs ys, json_insert widen fmt_f32 fmt_f64 db tbl ds vs ys doc <->
        json_agree widen fmt_f32 fmt_f64 ds (firstn (length ds) row) xs vs ys) (r_rows r) xss docs.
  Proof.
    intros N0 Hr. unfold json_from_insert. rewrite filter_cols. fold ds. cbn [rbind].
    assert (N : NoDup (map cd_name ds)) by (apply NoDup_present; exact N0).
    induction Hr as [|row xs rows xss H _ (docs & IH1 & IH2)]; [exists []; split; [reflexivity|constructor]|].
    rewrite <- (firstn_len ds) in H at 1. destruct (json_row_first _ _ _ _ _ _ _ N H) as (m & ns & E1 & E2 & E3 & E4 & _).
    rewrite firstn_len in E1, E2, E4.
    cbn [map sequence]. rewrite E4. cbn [rmap rbind fst snd]. rewrite IH1. cbn [rbind]. eexists. split; [reflexivity|].
    constructor; [|exact IH2]. intros vs ys. rewrite <- (object_exact _ _ _ _ N E1 _ E2). split.
    - intros (m' & K & O & B). cbn [j_base64] in *. injection K as <-. split; assumption.
    - intros [O B]. exists m. split; [reflexivity|]. split; assumption.
  Qed.
  Theorem delete_docs db tbl r defs xss (ds := present (r_present_bitmap r) defs) : NoDup (map cd_name defs) ->
    Forall2 (fun row xs => json_readable widen fmt_f32 fmt_f64 ds (firstn (length ds) row) xs) (r_rows r) xss ->
    exists docs, json_from_delete widen db tbl r defs = Ok docs /\
      forall3 (fun row xs doc => forall vs ys, json_delete widen fmt_f32 fmt_f64 db tbl ds vs ys doc <->
        json_agree widen fmt_f32 fmt_f64 ds (firstn (length ds) row) xs vs ys) (r_rows r) xss docs.
  Proof.
    intros N0 Hr. unfold json_from_delete. rewrite filter_cols. fold ds. cbn [rbind].
    assert (N : NoDup (map cd_name ds)) by (apply NoDup_present; exact N0).
    induction Hr as [|row xs rows xss H _ (docs & IH1 & IH2)]; [exists []; split; [reflexivity|constructor]|].
    rewrite <- (firstn_len ds) in H at 1. destruct (json_row_first _ _ _ _ _ _ _ N H) as (m & ns & E1 & E2 & E3 & E4 & _).
    rewrite firstn_len in E1, E2, E4.
    cbn [map sequence]. rewrite E4. cbn [rmap rbind fst snd]. rewrite IH1. cbn [rbind]. eexists. split; [reflexivity|].
    constructor; [|exact IH2]. intros vs ys. rewrite <- (object_exact _ _ _ _ N E1 _ E2). split.
    - intros (m' & K & O & B). cbn [j_base64] in *. injection K as <-. split; assumption.
    - intros [O B]. exists m. split; [reflexivity|]. split; assumption.
  Qed.
  Theorem update_docs db tbl u defs xss (ds := present (u_before_present_bitmap u) defs) (ds' := present (u_after_present_bitmap u) defs) :
    NoDup (map cd_name defs) ->
    Forall2 (fun row xs => json_readable widen fmt_f32 fmt_f64 ds (firstn (length ds) (fst row)) (fst xs) /\
                           json_readable widen fmt_f32 fmt_f64 ds' (firstn (length ds') (snd row)) (snd xs)) (u_rows u) xss ->
    exists docs, json_from_update widen db tbl u defs = Ok docs /\
      forall3 (fun row xs doc => json_update widen fmt_f32 fmt_f64 db tbl
                 ds (firstn (length ds) (fst row)) (fst xs) ds' (firstn (length ds') (snd row)) (snd xs) doc) (u_rows u) xss docs.
  Proof.
    intros N0 Hr. unfold json_from_update. rewrite !filter_cols. fold ds ds'. cbn [rbind].
    assert (N : NoDup (map cd_name ds)) by (apply NoDup_present; exact N0).
    assert (N' : NoDup (map cd_name ds')) by (apply NoDup_present; exact N0).
    induction Hr as [|row xs rows xss [H H'] _ (docs & IH1 & IH2)]; [exists []; split; [reflexivity|constructor]|].
    rewrite <- (firstn_len ds) in H at 1. rewrite <- (firstn_len ds') in H' at 1.
    destruct (json_row_first _ _ _ _ _ _ _ N H) as (m & ns & E1 & E2 & E3 & E4 & _).
    destruct (json_row_first _ _ _ _ _ _ _ N' H') as (m' & ns' & E1' & E2' & E3' & _ & E4').
    rewrite firstn_len in E1, E2, E4, E1', E2', E4'.
    destruct (E4' ns E3) as (l & E5 & E6).
    cbn [map sequence]. rewrite E4. cbn [rbind fst snd]. rewrite E5. cbn [rbind fst snd]. rewrite IH1. cbn [rbind]. eexists. split; [reflexivity|].
    constructor; [|exact IH2]. exists m, m', ns, ns'. split; [reflexivity|]. split; [exact E1|]. split; [exact E1'|]. split; [exact E2|]. split; [exact E2'|]. exact E6.
  Qed.
  Lemma json_agree_nth ds vs xs vs' ys : json_agree widen fmt_f32 fmt_f64 ds vs xs vs' ys -> forall p v, nth_error vs p = Some v ->
    exists d x v' y, nth_error ds p = Some d /\ nth_error xs p = Some x /\ nth_error vs' p = Some v' /\ nth_error ys p = Some y /\
      logged fmt_f32 fmt_f64 (is_unsigned d) v' y /\ same_json widen v x v' y.
  Proof.
    induction 1 as [|d v x v' y ds vs xs vs' ys L S _ IH]; intros [|p] w H; try discriminate; [|exact (IH p w H)].
    injection H as <-. exists d, x, v', y. repeat (split; [first [reflexivity|assumption]|]). exact S.
  Qed.
  Theorem gap_disagrees_json bitmap defs row xs ys (ds := present bitmap defs) :
    gap bitmap (length defs) -> length row = length defs -> absent_null bitmap row -> ~ In LNull (present bitmap row) ->
    json_readable widen fmt_f32 fmt_f64 ds (firstn (length ds) row) xs ->
    ~ json_agree widen fmt_f32 fmt_f64 ds (firstn (length ds) row) xs (present bitmap row) ys.
  Proof.
    intros G L N NN Hx A. destruct (gap_pairs bitmap defs row 0 L N (gap_gap _ _ G)) as (p & v & P1 & P2).
    destruct (json_readable_nth _ _ _ _ _ _ Hx p LNull P1) as (d & x & D1 & X1 & Lx). apply logged_null in Lx. subst x.
    destruct (json_agree_nth _ _ _ _ _ A p LNull P1) as (d' & x' & v' & y & D2 & X2 & V2 & Y2 & Ly & (j & M1 & M2) & _).
    rewrite X1 in X2. injection X2 as <-. unfold present in V2. rewrite P2 in V2. injection V2 as <-. cbn [json_means] in M1. subst j.
    assert (v <> LNull) by (intros ->; apply NN; exact (nth_error_In _ _ P2)).
    destruct Ly; cbn [json_means] in M2; try discriminate; [contradiction|]. destruct M2 as (e & _ & K). discriminate.
  Qed.
End Json.
