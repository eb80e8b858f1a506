(** * SQL statements *)
From Coq Require Import Strings.String.
From Verif Require Import Model.Base Model.BytesParser Model.Utf8 Model.Bitmap Model.Flags Model.Auth Model.Fmt Model.Time Model.Decimal Model.Col
  Model.Row Model.Rows Model.Stmt Model.Transform
  Spec.BitmapSpec Spec.SqlSpec
  Proofs.BaseLemmas Proofs.BitmapProofs Proofs.PacketProofs Proofs.SqlProofs.
From Coq Require Import Lia.
Open Scope N_scope.

(** ** Text that is read as given tokens in front of [rest] *)
Definition lx (esc : bool) (s : bytes) (ts : list token) (rest : bytes) : Prop :=
  lex esc (s ++ rest) = option_map (app ts) (lex esc rest).
Lemma lx_nil esc rest : lx esc [] [] rest.
Proof. unfold lx. cbn [app]. destruct (lex esc rest); reflexivity. Qed.
Lemma lx_app esc s1 ts1 s2 ts2 rest : lx esc s1 ts1 (s2 ++ rest) -> lx esc s2 ts2 rest -> lx esc (s1 ++ s2) (ts1 ++ ts2) rest.
Proof.
  unfold lx. intros H1 H2. rewrite <- app_assoc, H1, H2. destruct (lex esc rest); [|reflexivity]. cbn. rewrite app_assoc. reflexivity.
Qed.
Lemma lx_word esc w rest : w <> [] -> forallb is_let w = true -> w <> str "x" -> w <> str "X" -> ends rest -> lx esc w [TkWord w] rest.
Proof. intros. unfold lx. rewrite lex_word by assumption. destruct (lex esc rest); reflexivity. Qed.
Lemma lx_space esc rest : lx esc (str " ") [] rest.
Proof. unfold lx. change (str " " ++ rest) with (n2b 32 :: rest). rewrite lex_space by reflexivity. destruct (lex esc rest); reflexivity. Qed.
Lemma lx_sym esc b rest : is_space b = false -> b <> quote -> b <> backtick -> is_dig b || is_let b = false -> lx esc [b] [TkSym b] rest.
Proof. intros. unfold lx. cbn [app]. rewrite lex_sym by assumption. destruct (lex esc rest); reflexivity. Qed.
Lemma lx_name esc name rest : plain_name name -> match rest with [] => True | b :: _ => b <> backtick end ->
  lx esc (quoted_name name) [TkName name] rest.
Proof.
  intros H K. unfold lx, quoted_name. rewrite <- !app_assoc. rewrite lex_name by assumption. destruct (lex esc rest); reflexivity.
Qed.

Definition joined (sep : bytes) (l : list bytes) : bytes :=
  match l with [] => [] | x :: l => x ++ flat_map (fun y => sep ++ y) l end.
Lemma joined_cons sep x y l : joined sep (x :: y :: l) = x ++ sep ++ joined sep (y :: l).
Proof. unfold joined, sep_by. cbn [flat_map]. rewrite <- ?app_assoc. reflexivity. Qed.
Lemma sep_by_cons sep x y l : sep_by sep (x :: y :: l) = x ++ sep ++ sep_by sep (y :: l).
Proof. unfold joined, sep_by. cbn [flat_map]. rewrite <- ?app_assoc. reflexivity. Qed.
(** a list with separators, in front of a text that may follow an element *)
Lemma lx_joined esc sep tsep (F : bytes -> Prop) (l : list (bytes * list token)) rest :
  (forall s ts r, In (s, ts) l -> F r -> lx esc s ts r) ->
  (forall r, F (sep ++ r)) -> (forall s ts r, In (s, ts) l -> lx esc sep tsep (s ++ r)) -> F rest ->
  lx esc (joined sep (map fst l)) (sep_by tsep (map snd l)) rest.
Proof.
  intros Hs Hsep Hsp Hr. induction l as [|[s ts] l IH]; [apply lx_nil|]. destruct l as [|[s' ts'] l].
  - cbn. rewrite !app_nil_r. apply Hs; [left; reflexivity|exact Hr].
  - cbn [map fst snd] in *. rewrite joined_cons, sep_by_cons. apply lx_app.
    + rewrite <- app_assoc. apply Hs; [left; reflexivity|apply Hsep].
    + apply lx_app.
      * destruct l as [|z l]; cbn [joined flat_map]; rewrite <- ?app_assoc; apply (Hsp s' ts'); right; left; reflexivity.
      * apply IH; [intros; apply Hs; [right|]; assumption|intros s0 ts0 r H; apply (Hsp s0 ts0); right; exact H].
Qed.

(** ** Filling in the parameters *)
Section Fill.
  Variables fmt_f32 fmt_f64 : N -> bytes.
  Definition filled (frs : list bytes) (ps : list stmt_value) (A : bytes) : Prop :=
    forall more ps', fill fmt_f32 fmt_f64 (frs ++ more) (ps ++ ps') = rmap (app A) (fill fmt_f32 fmt_f64 more ps').
  Lemma filled_all frs ps A : filled frs ps A -> fill fmt_f32 fmt_f64 frs ps = Ok A.
  Proof. intros H. specialize (H [] []). rewrite !app_nil_r in H. rewrite H. cbn. rewrite app_nil_r. reflexivity. Qed.
  Lemma rmap_app_app A B (r : res bytes) : rmap (app A) (rmap (app B) r) = rmap (app (A ++ B)) r.
  Proof. destruct r; cbn; rewrite ?app_assoc; reflexivity. Qed.
  Lemma filled_nil : filled [] [] [].
  Proof. intros more ps. cbn. destruct (fill _ _ more ps); reflexivity. Qed.
  Lemma filled_lit frs ps A f : filled frs ps A -> f <> str "?" -> filled (frs ++ [f]) ps (A ++ f).
  Proof.
    intros H Hf more ps'. rewrite <- app_assoc, H. cbn [app fill]. rewrite beqb_neq by exact Hf. apply rmap_app_app.
  Qed.
  Lemma filled_param frs ps A p t : filled frs ps A -> param_text fmt_f32 fmt_f64 p = Ok t -> filled (frs ++ [str "?"]) (ps ++ [p]) (A ++ t).
  Proof.
    intros H Hp more ps'. rewrite <- !app_assoc, H. cbn [app fill]. change (beqb (str "?") (str "?")) with true. cbv iota.
    rewrite Hp. cbn [rbind]. apply rmap_app_app.
  Qed.
  Lemma push_last_app frs l x : push_last (frs ++ [l]) x = frs ++ [l ++ x].
  Proof. induction frs as [|f frs IH]; [reflexivity|]. cbn [app push_last]. rewrite IH. destruct frs; reflexivity. Qed.

  (** a present column with its parameter and the text and tokens of it *)
  Record cell := mk_cell { k_def : column_def; k_param : stmt_value; k_text : bytes; k_tokens : list token }.
  Definition cell_ok esc (c : cell) : Prop :=
    param_text fmt_f32 fmt_f64 (k_param c) = Ok (k_text c) /\ reads_as esc (k_text c) (k_tokens c).
  Definition assign (c : cell) : bytes := str "`" ++ cd_name (k_def c) ++ str "` = " ++ k_text c.
  Definition kdef c := col_def_of (k_def c).
  Lemma key_is d : f_key (col_def_of d) = is_key d.
  Proof. unfold col_def_of, is_key. cbn [f_key]. f_equal; [apply (contains_testbit _ 1)|apply (contains_testbit _ 2)]. Qed.
  Lemma unsigned_is d : f_unsigned (col_def_of d) = is_unsigned d.
  Proof. apply (contains_testbit _ 5). Qed.
  Lemma long_neq (a b c : byte) (l x : bytes) : (2 <= length l)%nat -> l ++ x <> [c].
  Proof. intros H E. apply (f_equal (@length byte)) in E. rewrite app_length in E. cbn in E. lia. Qed.
  Lemma not_placeholder l : (2 <= length l)%nat -> l <> str "?".
  Proof. intros H ->. cbn in H. lia. Qed.

  Lemma filled_where cells : forall idx frs ps A, (0 < idx)%nat -> Forall (fun c => param_text fmt_f32 fmt_f64 (k_param c) = Ok (k_text c)) cells ->
    filled frs ps A ->
    filled (where_fragments (map kdef cells) idx frs) (ps ++ map k_param (filter (fun c => is_key (k_def c)) cells))
      (A ++ flat_map (fun c => str " AND " ++ assign c) (filter (fun c => is_key (k_def c)) cells)).
  Proof.
    induction cells as [|c cells IH]; intros idx frs ps A Hi Hc H.
    - cbn. rewrite !app_nil_r. exact H.
    - inversion Hc as [|? ? Hp Hc']; subst. cbn [map where_fragments filter]. unfold kdef at 1. rewrite key_is.
      destruct (is_key (k_def c)); [|apply IH; assumption].
      destruct (Nat.ltb_spec 0 idx); [|lia].
      change (ps ++ map k_param (c :: ?l)) with (ps ++ [k_param c] ++ map k_param l). cbn [map]. change (k_param c :: ?l) with ([k_param c] ++ l).
      rewrite (app_assoc ps). cbn [flat_map]. rewrite (app_assoc A). apply IH; [lia|exact Hc'|].
      rewrite <- app_assoc. change ([ ?a ] ++ [str "?"]) with [a; str "?"].
      replace (frs ++ [str " AND `" ++ f_name (kdef c) ++ str "` = "; str "?"])
        with ((frs ++ [str " AND `" ++ f_name (kdef c) ++ str "` = "]) ++ [str "?"]) by (rewrite <- app_assoc; reflexivity).
      replace (A ++ str " AND " ++ assign c) with ((A ++ str " AND `" ++ f_name (kdef c) ++ str "` = ") ++ k_text c)
        by (unfold assign; cbn [kdef f_name col_def_of]; rewrite <- !app_assoc; reflexivity).
      apply filled_param; [|exact Hp]. apply filled_lit; [exact H|]. apply not_placeholder. rewrite app_length. cbn. lia.
  Qed.
  Lemma filled_where0 cells : forall frs l ps A, (2 <= length l)%nat ->
    Forall (fun c => param_text fmt_f32 fmt_f64 (k_param c) = Ok (k_text c)) cells -> filled frs ps A ->
    filled (where_fragments (map kdef cells) 0 (frs ++ [l])) (ps ++ map k_param (filter (fun c => is_key (k_def c)) cells))
      (A ++ l ++ joined (str " AND ") (map assign (filter (fun c => is_key (k_def c)) cells))).
  Proof.
    induction cells as [|c cells IH]; intros frs l ps A Hl Hc H.
    - cbn. rewrite !app_nil_r. apply filled_lit; [exact H|apply not_placeholder; exact Hl].
    - inversion Hc as [|? ? Hp Hc']; subst. cbn [map where_fragments filter]. unfold kdef at 1. rewrite key_is.
      destruct (is_key (k_def c)); [|apply IH; assumption].
      cbn [Nat.ltb Nat.leb]. rewrite push_last_app. cbn [map joined]. change (k_param c :: ?l) with ([k_param c] ++ l).
      rewrite (app_assoc ps).
      replace (A ++ l ++ assign c ++ flat_map (fun y => str " AND " ++ y) (map assign (filter (fun c => is_key (k_def c)) cells)))
        with ((A ++ l ++ assign c) ++ flat_map (fun c => str " AND " ++ assign c) (filter (fun c => is_key (k_def c)) cells)).
      2: { rewrite <- !app_assoc. do 3 f_equal. clear. induction (filter (fun c => is_key (k_def c)) cells) as [|z cs IH]; [reflexivity|].
           cbn [map flat_map]. rewrite IH. reflexivity. }
      apply filled_where; [lia|exact Hc'|].
      replace (A ++ l ++ assign c) with ((A ++ (l ++ str "`" ++ f_name (kdef c) ++ str "` = ")) ++ k_text c)
        by (unfold assign; cbn [kdef f_name col_def_of]; rewrite <- !app_assoc; reflexivity).
      apply filled_param; [|exact Hp]. apply filled_lit; [exact H|]. apply not_placeholder. rewrite app_length. lia.
  Qed.
  Lemma filled_set cells : forall idx frs ps A, (0 < idx)%nat -> Forall (fun c => param_text fmt_f32 fmt_f64 (k_param c) = Ok (k_text c)) cells ->
    filled frs ps A ->
    filled (set_fragments (map kdef cells) idx frs) (ps ++ map k_param cells) (A ++ flat_map (fun c => str ", " ++ assign c) cells).
  Proof.
    induction cells as [|c cells IH]; intros idx frs ps A Hi Hc H.
    - cbn. rewrite !app_nil_r. exact H.
    - inversion Hc as [|? ? Hp Hc']; subst. cbn [map set_fragments]. destruct (Nat.ltb_spec 0 idx); [|lia].
      change (k_param c :: ?l) with ([k_param c] ++ l). rewrite (app_assoc ps). cbn [flat_map]. rewrite (app_assoc A). apply IH; [lia|exact Hc'|].
      replace (A ++ str ", " ++ assign c) with ((A ++ str ", `" ++ f_name (kdef c) ++ str "` = ") ++ k_text c)
        by (unfold assign; cbn [kdef f_name col_def_of]; rewrite <- !app_assoc; reflexivity).
      apply filled_param; [|exact Hp]. apply filled_lit; [exact H|]. apply not_placeholder. rewrite app_length. cbn. lia.
  Qed.
  Lemma filled_set0 cells : forall frs l ps A, (2 <= length l)%nat ->
    Forall (fun c => param_text fmt_f32 fmt_f64 (k_param c) = Ok (k_text c)) cells -> filled frs ps A ->
    filled (set_fragments (map kdef cells) 0 (frs ++ [l])) (ps ++ map k_param cells) (A ++ l ++ joined (str ", ") (map assign cells)).
  Proof.
    intros frs l ps A Hl Hc H. destruct cells as [|c cells].
    - cbn. rewrite !app_nil_r. apply filled_lit; [exact H|apply not_placeholder; exact Hl].
    - inversion Hc as [|? ? Hp Hc']; subst. cbn [map set_fragments].
      cbn [Nat.ltb Nat.leb]. rewrite push_last_app. cbn [joined]. change (k_param c :: ?l) with ([k_param c] ++ l).
      rewrite (app_assoc ps).
      replace (A ++ l ++ assign c ++ flat_map (fun y => str ", " ++ y) (map assign cells))
        with ((A ++ l ++ assign c) ++ flat_map (fun c => str ", " ++ assign c) cells).
      2: { rewrite <- !app_assoc. do 3 f_equal. clear. induction cells as [|z cs IH]; [reflexivity|]. cbn [map flat_map]. rewrite IH. reflexivity. }
      apply filled_set; [lia|exact Hc'|].
      replace (A ++ l ++ assign c) with ((A ++ (l ++ str "`" ++ f_name (kdef c) ++ str "` = ")) ++ k_text c)
        by (unfold assign; cbn [kdef f_name col_def_of]; rewrite <- !app_assoc; reflexivity).
      apply filled_param; [|exact Hp]. apply filled_lit; [exact H|]. apply not_placeholder. rewrite app_length. lia.
  Qed.
  Lemma filled_values cells : forall i frs ps A, Forall (fun c => param_text fmt_f32 fmt_f64 (k_param c) = Ok (k_text c)) cells -> filled frs ps A ->
    filled (frs ++ flat_map (fun idx => (if (0 <? idx)%nat then [str ","] else []) ++ [str "?"]) (seq i (length cells)))
      (ps ++ map k_param cells)
      (A ++ (if (0 <? i)%nat then flat_map (fun y => str "," ++ y) (map k_text cells) else joined (str ",") (map k_text cells))).
  Proof.
    induction cells as [|c cells IH]; intros i frs ps A Hc H.
    - cbn [map flat_map length seq joined]. destruct (0 <? i)%nat; rewrite !app_nil_r; exact H.
    - inversion Hc as [|? ? Hp Hc']; subst. cbn [length seq map flat_map]. rewrite app_assoc. change (k_param c :: ?l) with ([k_param c] ++ l).
      rewrite (app_assoc ps). specialize (IH (S i)). cbn [Nat.ltb Nat.leb] in IH.
      destruct (Nat.ltb_spec 0 i).
      + rewrite (app_assoc A). rewrite (app_assoc A (str ",")). apply IH; [exact Hc'|]. rewrite (app_assoc frs). apply filled_param; [|exact Hp].
        apply filled_lit; [exact H|discriminate].
      + cbn [joined]. rewrite (app_assoc A). apply IH; [exact Hc'|]. cbn [app]. apply filled_param; assumption.
  Qed.
End Fill.

(** ** Present columns *)
Lemma filter_first {A} (f : nat -> bool) (l : list A) : forall i k m, (length l <= m)%nat ->
  (forall j, (i <= j < i + length l)%nat -> f j = (j <? i + k)%nat) ->
  map snd (filter fst (combine (map f (seq i m)) l)) = firstn k l.
Proof.
  induction l as [|a l IH]; intros i k m Hm Hf.
  - rewrite firstn_nil. destruct (map f (seq i m)); reflexivity.
  - destruct m as [|m]; [cbn in Hm; lia|]. cbn [seq map combine filter fst]. cbn [length] in *.
    assert (E : f i = (i <? i + k)%nat) by (apply Hf; lia). destruct k as [|k].
    + destruct (Nat.ltb_spec i (i + 0)); [lia|]. rewrite E. change (firstn 0 (a :: l)) with (firstn 0 l). apply IH; [lia|]. intros j Hj. rewrite Hf by lia.
      destruct (Nat.ltb_spec j (i + 0)), (Nat.ltb_spec j (S i + 0)); lia || reflexivity.
    + destruct (Nat.ltb_spec i (i + S k)); [|lia]. rewrite E. cbn [map snd firstn]. f_equal. apply IH; [lia|]. intros j Hj. rewrite Hf by lia.
      f_equal. lia.
Qed.
Lemma filter_cols_first bitmap (defs : list column_def) k : first_present (length defs) k bitmap ->
  filter_col_defs bitmap defs = Ok (map col_def_of (firstn k defs)).
Proof.
  intros (Hl & Hb). unfold filter_col_defs. rewrite bm_to_iter_spec by lia. unfold bits_from. cbn [rmap rbind].
  f_equal. rewrite Nat.sub_0_r. rewrite <- (filter_first (bit bitmap) defs 0 k (8 * length bitmap)).
  - rewrite map_map. reflexivity.
  - exact Hl.
  - intros j Hj. apply Hb. lia.
Qed.
Lemma combine_firstn {A B} (l : list A) (r : list B) k : length l = length (firstn k r) -> combine l r = combine l (firstn k r).
Proof.
  revert k r; induction l as [|a l IH]; intros k r H; [reflexivity|]. destruct k as [|k]; [discriminate|]. destruct r as [|b r]; [discriminate|].
  cbn in *. f_equal. apply IH. lia.
Qed.

(** ** Rows *)
Section Stmts.
  Variables fmt_f32 fmt_f64 : N -> bytes.
  Variable esc : bool.
  Definition shown (cells : list cell) : list (column_def * list token) := map (fun c => (k_def c, k_tokens c)) cells.
  Lemma row_cells ds vs xs : row_means fmt_f32 fmt_f64 esc ds vs xs ->
    exists cells, map k_def cells = ds /\ Forall (cell_ok fmt_f32 fmt_f64 esc) cells /\ cols_tokens ds xs (shown cells) /\
      length ds = length vs /\
      params_of (map col_def_of ds) vs = Ok (map k_param cells) /\
      key_params_of (map col_def_of ds) vs = Ok (map k_param (filter (fun c => is_key (k_def c)) cells)).
  Proof.
    induction 1 as [|d v x ds vs xs L X _ (cells & E1 & E2 & E3 & E4 & E5 & E6)].
    - exists []. split; [reflexivity|]. split; [constructor|]. split; [constructor|]. split; [reflexivity|]. split; reflexivity.
    - destruct (literal_reads fmt_f32 fmt_f64 esc _ v x L X) as (sv & s & ts & H1 & H2 & H3 & H4).
      exists (mk_cell d sv s ts :: cells). split; [cbn; rewrite E1; reflexivity|]. split; [constructor; [split; assumption|exact E2]|].
      split; [constructor; assumption|]. split; [cbn; lia|]. split.
      + unfold params_of in *. cbn [map combine sequence snd fst]. rewrite unsigned_is, H1. cbn [rbind]. rewrite E5. reflexivity.
      + unfold key_params_of in *. cbn [map combine filter fst k_def]. rewrite key_is. destruct (is_key d); [|exact E6].
        cbn [map sequence snd fst]. rewrite unsigned_is, H1. cbn [rbind]. rewrite E6. reflexivity.
  Qed.
  Lemma row_cells_first k ds row xs : row_means fmt_f32 fmt_f64 esc (firstn k ds) (firstn k row) xs ->
    exists cells, map k_def cells = firstn k ds /\ Forall (cell_ok fmt_f32 fmt_f64 esc) cells /\ cols_tokens (firstn k ds) xs (shown cells) /\
      params_of (map col_def_of (firstn k ds)) row = Ok (map k_param cells) /\
      key_params_of (map col_def_of (firstn k ds)) row = Ok (map k_param (filter (fun c => is_key (k_def c)) cells)).
  Proof.
    intros H. destruct (row_cells _ _ _ H) as (cells & E1 & E2 & E3 & E4 & E5 & E6). exists cells.
    assert (C : combine (map col_def_of (firstn k ds)) row = combine (map col_def_of (firstn k ds)) (firstn k row))
      by (apply combine_firstn; rewrite map_length; exact E4).
    split; [exact E1|]. split; [exact E2|]. split; [exact E3|]. unfold params_of, key_params_of in *. rewrite C. split; assumption.
  Qed.

  Lemma sequence_forall2 {A B} (f : A -> res B) l l' : Forall2 (fun a b => f a = Ok b) l l' -> sequence (map f l) = Ok l'.
  Proof. induction 1 as [|a b l l' E _ IH]; [reflexivity|]. cbn [map sequence]. rewrite E. cbn [rbind]. rewrite IH. reflexivity. Qed.

  (** ** Reading the statements *)
  Ltac nospecial := try reflexivity; apply neq_val; discriminate.
  Lemma lx_dotted db tbl rest : plain_name db -> plain_name tbl -> match rest with [] => True | b :: _ => b <> backtick end ->
    lx esc (str "`" ++ db ++ str "`.`" ++ tbl ++ str "`") (dotted db tbl) rest.
  Proof.
    intros Hd Ht Hr. change (dotted db tbl) with ([TkName db] ++ [TkSym (n2b 46)] ++ [TkName tbl]).
    replace (str "`" ++ db ++ str "`.`" ++ tbl ++ str "`") with (quoted_name db ++ [n2b 46] ++ quoted_name tbl)
      by (unfold quoted_name; rewrite <- !app_assoc; reflexivity).
    apply lx_app; [apply lx_name; [exact Hd|apply neq_val; discriminate]|].
    apply lx_app; [apply lx_sym; nospecial|]. apply lx_name; assumption.
  Qed.
  (** a keyword and a space *)
  Lemma lx_kw w rest : w <> [] -> forallb is_let w = true -> w <> str "x" -> w <> str "X" -> lx esc (w ++ str " ") [TkWord w] rest.
  Proof.
    intros. rewrite <- (app_nil_r [TkWord w]). apply lx_app; [|apply lx_space]. apply lx_word; try assumption.
    apply (delimited_ends (str " " ++ rest)). left. reflexivity.
  Qed.
  Lemma lx_skip s ts rest : lx esc s ts rest -> lx esc (str " " ++ s) ts rest.
  Proof. intros H. apply (lx_app esc (str " ") []); [apply lx_space|exact H]. Qed.
  Lemma lx_assign c rest : cell_ok fmt_f32 fmt_f64 esc c -> plain_name (cd_name (k_def c)) -> delimited rest ->
    lx esc (assign c) (equals (cd_name (k_def c), k_tokens c)) rest.
  Proof.
    intros (_ & R) Hn Hr. unfold equals. cbn [fst snd].
    replace (assign c) with (quoted_name (cd_name (k_def c)) ++ str " " ++ [n2b 61] ++ str " " ++ k_text c)
      by (unfold assign, quoted_name; rewrite <- !app_assoc; reflexivity).
    change ([TkName (cd_name (k_def c)); TkSym (n2b 61)] ++ k_tokens c) with ([TkName (cd_name (k_def c))] ++ [TkSym (n2b 61)] ++ k_tokens c).
    apply lx_app; [apply lx_name; [exact Hn|apply neq_val; discriminate]|]. apply lx_skip.
    apply lx_app; [apply lx_sym; nospecial|]. apply lx_skip. apply R. exact Hr.
  Qed.
  Lemma lx_assigns sep tsep cells rest : Forall (cell_ok fmt_f32 fmt_f64 esc) cells -> Forall (fun c => plain_name (cd_name (k_def c))) cells ->
    delimited rest -> (forall r, delimited (sep ++ r)) -> (forall r, lx esc sep tsep (str "`" ++ r)) ->
    lx esc (joined sep (map assign cells)) (sep_by tsep (map equals (named (shown cells)))) rest.
  Proof.
    intros Hc Hn Hr Hs Ht. rewrite Forall_forall in Hc, Hn.
    pose proof (lx_joined esc sep tsep delimited (map (fun c => (assign c, equals (cd_name (k_def c), k_tokens c))) cells) rest) as L.
    rewrite !map_map in L. unfold named, shown. rewrite !map_map. cbn [fst snd] in *. apply L; clear L; [|exact Hs| |exact Hr].
    - intros s ts r H K. apply in_map_iff in H as (c & E & H). injection E as <- <-. apply lx_assign; [apply Hc|apply Hn|]; assumption.
    - intros s ts r H. apply in_map_iff in H as (c & E & H). injection E as <- _. unfold assign. rewrite <- app_assoc. apply Ht.
  Qed.
  Lemma keys_shown cells : keys_of (shown cells) = shown (filter (fun c => is_key (k_def c)) cells).
  Proof. induction cells as [|c cells IH]; [reflexivity|]. cbn [shown map keys_of filter fst]. destruct (is_key (k_def c)); cbn [map]; unfold keys_of in IH; fold (shown cells); rewrite IH; reflexivity. Qed.
  Lemma filter_Forall {A} (P : A -> Prop) f l : Forall P l -> Forall P (filter f l).
  Proof. rewrite !Forall_forall. intros H x K. apply filter_In in K. apply H. apply K. Qed.
  Lemma sep_comma r : delimited (str ", " ++ r). Proof. right; right; left; reflexivity. Qed.
  Lemma sep_and r : delimited (str " AND " ++ r). Proof. left; reflexivity. Qed.
  Lemma lx_and r : lx esc (str " AND ") [TkWord (str "AND")] r.
  Proof. apply (lx_skip (str "AND ")). apply (lx_kw (str "AND")); [discriminate|reflexivity|discriminate|discriminate]. Qed.
  Lemma lx_comma_space r : lx esc (str ", ") comma r.
  Proof. apply (lx_app esc [n2b 44] comma (str " ") []); [apply lx_sym; nospecial|apply lx_space]. Qed.
  Lemma lx_done s ts : lx esc s ts [] -> lex esc s = Some ts.
  Proof. unfold lx. rewrite app_nil_r. intros ->. cbn. rewrite app_nil_r. reflexivity. Qed.

  Lemma insert_read db tbl cells : plain_name db -> plain_name tbl -> Forall (fun c => plain_name (cd_name (k_def c))) cells ->
    Forall (cell_ok fmt_f32 fmt_f64 esc) cells ->
    lex esc (str "INSERT INTO `" ++ db ++ str "`.`" ++ tbl ++ str "` (" ++ joined (str ",") (map (fun c => quoted_name (cd_name (k_def c))) cells)
             ++ str ") VALUES (" ++ joined (str ",") (map k_text cells) ++ str ")")
    = Some (insert_tokens db tbl (named (shown cells))).
  Proof.
    intros Hd Ht Hn Hc. apply lx_done. rewrite Forall_forall in Hn, Hc.
    replace (str "INSERT INTO `" ++ db ++ str "`.`" ++ tbl ++ str "` (" ++ joined (str ",") (map (fun c => quoted_name (cd_name (k_def c))) cells)
             ++ str ") VALUES (" ++ joined (str ",") (map k_text cells) ++ str ")")
      with ((str "INSERT ") ++ str "INTO " ++ (str "`" ++ db ++ str "`.`" ++ tbl ++ str "`") ++ str " " ++ str "(" ++
            joined (str ",") (map (fun c => quoted_name (cd_name (k_def c))) cells) ++ str ")" ++ str " " ++ str "VALUES " ++ str "(" ++
            joined (str ",") (map k_text cells) ++ str ")") by (rewrite <- !app_assoc; reflexivity).
    unfold insert_tokens.
    change ([TkWord (str "INSERT"); TkWord (str "INTO")] ++ ?x) with ([TkWord (str "INSERT")] ++ [TkWord (str "INTO")] ++ x).
    change ([TkSym (n2b 41); TkWord (str "VALUES"); TkSym (n2b 40)] ++ ?x) with ([TkSym (n2b 41)] ++ [TkWord (str "VALUES")] ++ [TkSym (n2b 40)] ++ x).
    apply lx_app; [apply (lx_kw (str "INSERT")); [discriminate|reflexivity|discriminate|discriminate]|].
    apply lx_app; [apply (lx_kw (str "INTO")); [discriminate|reflexivity|discriminate|discriminate]|].
    apply lx_app; [apply lx_dotted; [exact Hd|exact Ht|apply neq_val; discriminate]|]. apply lx_skip.
    apply lx_app; [apply lx_sym; nospecial|].
    apply lx_app.
    { pose proof (lx_joined esc (str ",") comma (fun r => match r with [] => True | b :: _ => b <> backtick end)
        (map (fun c => (quoted_name (cd_name (k_def c)), [TkName (cd_name (k_def c))])) cells)) as L. rewrite !map_map in L. cbn [fst snd] in L.
      unfold named, shown. rewrite !map_map. apply L; clear L.
      - intros s ts r H K. apply in_map_iff in H as (c & E & H). injection E as <- <-. apply lx_name; [apply Hn; exact H|exact K].
      - intros r. apply neq_val. discriminate.
      - intros s ts r H. apply lx_sym; nospecial.
      - apply neq_val. discriminate. }
    apply lx_app; [apply lx_sym; nospecial|]. apply lx_skip.
    apply lx_app; [apply (lx_kw (str "VALUES")); [discriminate|reflexivity|discriminate|discriminate]|].
    apply lx_app; [apply lx_sym; nospecial|].
    apply lx_app; [|apply lx_sym; nospecial].
    pose proof (lx_joined esc (str ",") comma delimited (map (fun c => (k_text c, k_tokens c)) cells)) as L. rewrite !map_map in L. cbn [fst snd] in L.
    unfold named, shown. rewrite !map_map. apply L; clear L.
    - intros s ts r H K. apply in_map_iff in H as (c & E & H). injection E as <- <-. apply (proj2 (Hc c H)). exact K.
    - intros r. right; right; left; reflexivity.
    - intros s ts r H. apply lx_sym; nospecial.
    - right; left; reflexivity.
  Qed.
  Lemma delete_read db tbl cells : plain_name db -> plain_name tbl -> Forall (fun c => plain_name (cd_name (k_def c))) cells ->
    Forall (cell_ok fmt_f32 fmt_f64 esc) cells ->
    lex esc (str "DELETE FROM `" ++ db ++ str "`.`" ++ tbl ++ str "` WHERE " ++ joined (str " AND ") (map assign cells))
    = Some (delete_tokens db tbl (named (shown cells))).
  Proof.
    intros Hd Ht Hn Hc. apply lx_done.
    replace (str "DELETE FROM `" ++ db ++ str "`.`" ++ tbl ++ str "` WHERE " ++ joined (str " AND ") (map assign cells))
      with (str "DELETE " ++ str "FROM " ++ (str "`" ++ db ++ str "`.`" ++ tbl ++ str "`") ++ str " " ++ str "WHERE " ++ joined (str " AND ") (map assign cells))
      by (rewrite <- !app_assoc; reflexivity).
    unfold delete_tokens. change ([TkWord (str "DELETE"); TkWord (str "FROM")] ++ ?x) with ([TkWord (str "DELETE")] ++ [TkWord (str "FROM")] ++ x).
    apply lx_app; [apply (lx_kw (str "DELETE")); [discriminate|reflexivity|discriminate|discriminate]|].
    apply lx_app; [apply (lx_kw (str "FROM")); [discriminate|reflexivity|discriminate|discriminate]|].
    apply lx_app; [apply lx_dotted; [exact Hd|exact Ht|apply neq_val; discriminate]|]. apply lx_skip.
    apply lx_app; [apply (lx_kw (str "WHERE")); [discriminate|reflexivity|discriminate|discriminate]|].
    apply lx_assigns; [exact Hc|exact Hn|exact I|exact sep_and|intros; apply lx_and].
  Qed.
  Lemma update_read db tbl cells keys : plain_name db -> plain_name tbl ->
    Forall (fun c => plain_name (cd_name (k_def c))) cells -> Forall (fun c => plain_name (cd_name (k_def c))) keys ->
    Forall (cell_ok fmt_f32 fmt_f64 esc) cells -> Forall (cell_ok fmt_f32 fmt_f64 esc) keys ->
    lex esc (str "UPDATE `" ++ db ++ str "`.`" ++ tbl ++ str "` SET " ++ joined (str ", ") (map assign cells)
             ++ str " WHERE " ++ joined (str " AND ") (map assign keys))
    = Some (update_tokens db tbl (named (shown cells)) (named (shown keys))).
  Proof.
    intros Hd Ht Hn Hn' Hc Hc'. apply lx_done.
    replace (str "UPDATE `" ++ db ++ str "`.`" ++ tbl ++ str "` SET " ++ joined (str ", ") (map assign cells)
             ++ str " WHERE " ++ joined (str " AND ") (map assign keys))
      with (str "UPDATE " ++ (str "`" ++ db ++ str "`.`" ++ tbl ++ str "`") ++ str " " ++ str "SET " ++ joined (str ", ") (map assign cells)
            ++ str " " ++ str "WHERE " ++ joined (str " AND ") (map assign keys))
      by (rewrite <- !app_assoc; reflexivity).
    unfold update_tokens.
    apply lx_app; [apply (lx_kw (str "UPDATE")); [discriminate|reflexivity|discriminate|discriminate]|].
    apply lx_app; [apply lx_dotted; [exact Hd|exact Ht|apply neq_val; discriminate]|]. apply lx_skip.
    apply lx_app; [apply (lx_kw (str "SET")); [discriminate|reflexivity|discriminate|discriminate]|].
    apply lx_app.
    - apply lx_assigns; [exact Hc|exact Hn|left; reflexivity|exact sep_comma|intros; apply lx_comma_space].
    - apply lx_skip. apply lx_app; [apply (lx_kw (str "WHERE")); [discriminate|reflexivity|discriminate|discriminate]|].
      apply lx_assigns; [exact Hc'|exact Hn'|exact I|exact sep_and|intros; apply lx_and].
  Qed.

  (** ** One statement for each row *)
  Lemma names_joined ds : forall i, flat_map (fun p => (if (0 <? fst p)%nat then str "," else []) ++ quoted_name (f_name (snd p)))
      (combine (seq i (length (map col_def_of ds))) (map col_def_of ds))
    = (if (0 <? i)%nat then flat_map (fun y => str "," ++ y) (map (fun d => quoted_name (cd_name d)) ds)
       else joined (str ",") (map (fun d => quoted_name (cd_name d)) ds)).
  Proof.
    induction ds as [|d ds IH]; intros i; [destruct (0 <? i)%nat; reflexivity|].
    cbn [map length seq combine flat_map fst snd]. rewrite IH. cbn [Nat.ltb Nat.leb]. destruct i; cbn [joined]; [reflexivity|].
    rewrite <- !app_assoc. reflexivity.
  Qed.
  Lemma cells_texts cells : Forall (cell_ok fmt_f32 fmt_f64 esc) cells ->
    Forall (fun c => param_text fmt_f32 fmt_f64 (k_param c) = Ok (k_text c)) cells.
  Proof. intros H. eapply Forall_impl; [|exact H]. intros c [E _]. exact E. Qed.
  Lemma cells_names (cells : list cell) ds : map k_def cells = ds -> Forall (fun d => plain_name (cd_name d)) ds ->
    Forall (fun c => plain_name (cd_name (k_def c))) cells.
  Proof. intros <- H. rewrite Forall_map in H. exact H. Qed.
  Lemma firstn_Forall {A} (P : A -> Prop) l k : Forall P l -> Forall P (firstn k l).
  Proof. intros H. revert k; induction H; intros [|k]; cbn; constructor; auto. Qed.

  Theorem insert_statements db tbl r defs k xss : plain_name db -> plain_name tbl -> Forall (fun d => plain_name (cd_name d)) defs ->
    first_present (length defs) k (r_present_bitmap r) ->
    Forall2 (fun row xs => row_means fmt_f32 fmt_f64 esc (firstn k defs) (firstn k row) xs) (r_rows r) xss ->
    exists q stmts, sql_from_insert db tbl r defs = Ok q /\ q_dbname q = db /\ sql_list fmt_f32 fmt_f64 q = Ok stmts /\
      Forall2 (fun xs s => inserts esc db tbl (firstn k defs) xs s) xss stmts.
  Proof.
    intros Hd Ht Hn Hp Hrows. unfold sql_from_insert. rewrite (filter_cols_first _ _ _ Hp). cbn [rbind].
    set (ds := firstn k defs) in *. assert (Hn' : Forall (fun d => plain_name (cd_name d)) ds) by (apply firstn_Forall; exact Hn).
    enough (exists pss stmts, Forall2 (fun row ps => params_of (map col_def_of ds) row = Ok ps) (r_rows r) pss /\
      Forall2 (fun ps s => fill fmt_f32 fmt_f64 (insert_sql_fragments db tbl (map col_def_of ds)) ps = Ok s) pss stmts /\
      Forall2 (fun xs s => inserts esc db tbl ds xs s) xss stmts) as (pss & stmts & H1 & H2 & H3).
    { rewrite (sequence_forall2 _ _ _ H1). eexists _, stmts. split; [reflexivity|]. split; [reflexivity|].
      split; [apply sequence_forall2; exact H2|exact H3]. }
    induction Hrows as [|row xs rows xss Hrow _ (pss & stmts & H1 & H2 & H3)].
    - exists [], []. split; [constructor|]. split; constructor.
    - destruct (row_cells_first k defs row xs Hrow) as (cells & E1 & E2 & E3 & E4 & _). fold ds in E1, E3, E4.
      exists (map k_param cells :: pss). eexists (_ :: stmts). split; [constructor; assumption|].
      set (head := str "INSERT INTO `" ++ db ++ str "`.`" ++ tbl ++ str "` (" ++
         joined (str ",") (map (fun c => quoted_name (cd_name (k_def c))) cells) ++ str ") VALUES (").
      assert (Hh : head <> str "?") by (apply not_placeholder; unfold head; rewrite app_length; cbn; lia).
      pose proof (filled_values fmt_f32 fmt_f64 cells 0 _ _ _ (cells_texts _ E2) (filled_lit _ _ [] [] [] head (filled_nil _ _) Hh)) as F.
      cbn [Nat.ltb Nat.leb] in F. cbn [app] in F.
      apply (filled_lit _ _ _ _ _ (str ")")) in F; [|discriminate]. apply filled_all in F.
      split.
      + constructor; [|exact H2]. rewrite <- F. f_equal. unfold insert_sql_fragments. rewrite names_joined. cbn [Nat.ltb Nat.leb].
        rewrite !map_length. rewrite <- E1 at 1 2. rewrite map_map, map_length. cbn [app]. reflexivity.
      + constructor; [|exact H3]. exists (shown cells). split; [exact E3|].
        rewrite <- (insert_read db tbl cells Hd Ht (cells_names _ _ E1 Hn') E2). f_equal. rewrite <- !app_assoc. reflexivity.
  Qed.
  Theorem delete_statements db tbl r defs k xss : plain_name db -> plain_name tbl -> Forall (fun d => plain_name (cd_name d)) defs ->
    first_present (length defs) k (r_present_bitmap r) ->
    Forall2 (fun row xs => row_means fmt_f32 fmt_f64 esc (firstn k defs) (firstn k row) xs) (r_rows r) xss ->
    exists q stmts, sql_from_delete db tbl r defs = Ok q /\ q_dbname q = db /\ sql_list fmt_f32 fmt_f64 q = Ok stmts /\
      Forall2 (fun xs s => deletes esc db tbl (firstn k defs) xs s) xss stmts.
  Proof.
    intros Hd Ht Hn Hp Hrows. unfold sql_from_delete. rewrite (filter_cols_first _ _ _ Hp). cbn [rbind].
    set (ds := firstn k defs) in *. assert (Hn' : Forall (fun d => plain_name (cd_name d)) ds) by (apply firstn_Forall; exact Hn).
    enough (exists pss stmts, Forall2 (fun row ps => key_params_of (map col_def_of ds) row = Ok ps) (r_rows r) pss /\
      Forall2 (fun ps s => fill fmt_f32 fmt_f64 (delete_sql_fragments db tbl (map col_def_of ds)) ps = Ok s) pss stmts /\
      Forall2 (fun xs s => deletes esc db tbl ds xs s) xss stmts) as (pss & stmts & H1 & H2 & H3).
    { rewrite (sequence_forall2 _ _ _ H1). eexists _, stmts. split; [reflexivity|]. split; [reflexivity|].
      split; [apply sequence_forall2; exact H2|exact H3]. }
    induction Hrows as [|row xs rows xss Hrow _ (pss & stmts & H1 & H2 & H3)].
    - exists [], []. split; [constructor|]. split; constructor.
    - destruct (row_cells_first k defs row xs Hrow) as (cells & E1 & E2 & E3 & _ & E4). fold ds in E1, E3, E4.
      eexists (_ :: pss), (_ :: stmts). split; [constructor; [exact E4|exact H1]|].
      pose proof (filled_where0 fmt_f32 fmt_f64 cells [] (str "DELETE FROM `" ++ db ++ str "`.`" ++ tbl ++ str "` WHERE ") [] []
        ltac:(rewrite app_length; cbn; lia) (cells_texts _ E2) (filled_nil _ _)) as F. apply filled_all in F.
      split.
      + constructor; [|exact H2]. unfold delete_sql_fragments. rewrite <- E1, map_map. exact F.
      + constructor; [|exact H3]. exists (shown cells). split; [exact E3|]. rewrite keys_shown.
        rewrite <- (delete_read db tbl (filter (fun c => is_key (k_def c)) cells) Hd Ht
          (filter_Forall _ _ _ (cells_names _ _ E1 Hn')) (filter_Forall _ _ _ E2)). f_equal. cbn [app]. rewrite <- !app_assoc. reflexivity.
  Qed.
  Theorem update_statements db tbl u defs k k' xss : plain_name db -> plain_name tbl -> Forall (fun d => plain_name (cd_name d)) defs ->
    first_present (length defs) k (u_before_present_bitmap u) -> first_present (length defs) k' (u_after_present_bitmap u) ->
    Forall2 (fun row xs => row_means fmt_f32 fmt_f64 esc (firstn k defs) (firstn k (fst row)) (fst xs) /\
                           row_means fmt_f32 fmt_f64 esc (firstn k' defs) (firstn k' (snd row)) (snd xs)) (u_rows u) xss ->
    exists q stmts, sql_from_update db tbl u defs = Ok q /\ q_dbname q = db /\ sql_list fmt_f32 fmt_f64 q = Ok stmts /\
      Forall2 (fun xs s => updates esc db tbl (firstn k defs) (firstn k' defs) (fst xs) (snd xs) s) xss stmts.
  Proof.
    intros Hd Ht Hn Hp Hp' Hrows. unfold sql_from_update. rewrite (filter_cols_first _ _ _ Hp), (filter_cols_first _ _ _ Hp'). cbn [rbind].
    set (ds := firstn k defs) in *. assert (Hn1 : Forall (fun d => plain_name (cd_name d)) ds) by (apply firstn_Forall; exact Hn).
    set (ds' := firstn k' defs) in *. assert (Hn2 : Forall (fun d => plain_name (cd_name d)) ds') by (apply firstn_Forall; exact Hn).
    match goal with |- context [sequence (map ?f _)] => set (ff := f) end.
    enough (exists pss stmts, Forall2 (fun row ps => ff row = Ok ps) (u_rows u) pss /\
      Forall2 (fun ps s => fill fmt_f32 fmt_f64 (update_sql_fragments db tbl (map col_def_of ds) (map col_def_of ds')) ps = Ok s) pss stmts /\
      Forall2 (fun xs s => updates esc db tbl ds ds' (fst xs) (snd xs) s) xss stmts) as (pss & stmts & H1 & H2 & H3).
    { rewrite (sequence_forall2 _ _ _ H1). eexists _, stmts. split; [reflexivity|]. split; [reflexivity|].
      split; [apply sequence_forall2; exact H2|exact H3]. }
    induction Hrows as [|row xs rows xss [Hrow Hrow'] _ (pss & stmts & H1 & H2 & H3)].
    - exists [], []. split; [constructor|]. split; constructor.
    - destruct (row_cells_first k defs (fst row) (fst xs) Hrow) as (cells & E1 & E2 & E3 & _ & E4). fold ds in E1, E3, E4.
      destruct (row_cells_first k' defs (snd row) (snd xs) Hrow') as (cells' & E1' & E2' & E3' & E4' & _). fold ds' in E1', E3', E4'.
      eexists (_ :: pss), (_ :: stmts). split.
      { constructor; [|exact H1]. unfold ff. rewrite E4'. cbn [rbind]. rewrite E4. reflexivity. }
      pose proof (filled_set0 fmt_f32 fmt_f64 cells' [] (str "UPDATE `" ++ db ++ str "`.`" ++ tbl ++ str "` SET ") [] []
        ltac:(rewrite app_length; cbn; lia) (cells_texts _ E2') (filled_nil _ _)) as F.
      apply (filled_where0 fmt_f32 fmt_f64 cells _ (str " WHERE ")) in F; [|cbn; lia|apply cells_texts; exact E2]. apply filled_all in F.
      split.
      + constructor; [|exact H2]. unfold update_sql_fragments. rewrite <- E1, <- E1', !map_map. exact F.
      + constructor; [|exact H3]. exists (shown cells), (shown cells'). split; [exact E3|]. split; [exact E3'|]. rewrite keys_shown.
        rewrite <- (update_read db tbl cells' (filter (fun c => is_key (k_def c)) cells) Hd Ht (cells_names _ _ E1' Hn2)
          (filter_Forall _ _ _ (cells_names _ _ E1 Hn1)) E2' (filter_Forall _ _ _ E2)). f_equal. cbn [app]. rewrite <- !app_assoc. reflexivity.
  Qed.
End Stmts.
