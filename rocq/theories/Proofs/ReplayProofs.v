(** * Proofs: running the generated statements *)
From Coq Require Import Strings.String.
From Coq Require Import List NArith ZArith Lia Arith Bool.
From Verif Require Import Model.Base Model.Auth Model.Fmt Model.Col Model.Row Model.Rows Model.Transform
  Spec.Temporal Spec.DecimalSpec Spec.SqlSpec Spec.Replay Proofs.BaseLemmas Proofs.DecimalProofs Proofs.TimeProofs Proofs.SqlProofs Proofs.SqlStmtProofs.
Import ListNotations.
Open Scope N_scope.

(** ** Parsing what was generated *)
Lemma literal_parsed x ts rest : value_tokens x ts -> p_literal (ts ++ rest) = Some (ts, rest).
Proof.
  destruct x as [|z|neg s|s|s]; cbn [value_tokens].
  - intros [-> | ->]; reflexivity.
  - intros (s & _ & ->). destruct (z <? 0)%Z; reflexivity.
  - intros ->. destruct neg; reflexivity.
  - intros ->. reflexivity.
  - intros ->. reflexivity.
Qed.
Lemma literal_length x ts : value_tokens x ts -> (1 <= length ts)%nat.
Proof.
  destruct x as [|z|neg s|s|s]; cbn [value_tokens].
  - intros [-> | ->]; cbn; lia.
  - intros (s & _ & ->). destruct (z <? 0)%Z; cbn; lia.
  - intros ->. destruct neg; cbn; lia.
  - intros ->. cbn. lia.
  - intros ->. cbn. lia.
Qed.
Definition literal_ok (ts : list token) : Prop := exists x, value_tokens x ts.

Lemma list_parsed {X A} (item : list token -> option (A * list token)) (more : token -> bool) (sep : token) (f : X -> list token) (g : X -> A) :
  more sep = true -> forall l fuel rest,
  Forall (fun x => forall r, item (f x ++ r) = Some (g x, r)) l -> l <> [] -> (length l <= fuel)%nat ->
  match rest with [] => True | t :: _ => more t = false end ->
  p_list fuel item more (sep_by [sep] (map f l) ++ rest) = Some (map g l, rest).
Proof.
  intros Hs. induction l as [|x l IH]; intros fuel rest F N L R; [congruence|]. clear N.
  destruct fuel as [|fuel]; [cbn in L; lia|]. apply Forall_cons_iff in F as [Hx F]. cbn [map sep_by]. cbn [p_list].
  rewrite <- app_assoc, Hx. destruct l as [|y l].
  - cbn [map flat_map app]. destruct rest as [|t rest]; [reflexivity|]. rewrite R. reflexivity.
  - cbn [map flat_map app]. rewrite Hs.
    specialize (IH fuel rest F). cbn [map sep_by app] in IH. rewrite IH; [reflexivity|discriminate|cbn [length] in *; lia|exact R].
Qed.
Lemma sep_by_length {X} (sep : list token) (f : X -> list token) l : Forall (fun x => (1 <= length (f x))%nat) l ->
  (length l <= length (sep_by sep (map f l)))%nat.
Proof.
  destruct l as [|x l]; [cbn; lia|]. intros F. apply Forall_cons_iff in F as [Hx F]. cbn [map sep_by length]. rewrite app_length.
  enough (length l <= length (flat_map (fun y => sep ++ y) (map f l)))%nat by lia.
  induction F as [|y l Hy F IH]; cbn; [lia|]. rewrite !app_length. lia.
Qed.

Lemma pair_parsed (p : bytes * list token) r : literal_ok (snd p) -> p_pair (equals p ++ r) = Some (p, r).
Proof. intros [x V]. destruct p as [n ts]. unfold equals. cbn [fst snd]. cbn [app p_pair]. change (sym 61 (TkSym (n2b 61))) with true. cbv iota. cbn in V. rewrite (literal_parsed _ _ _ V). reflexivity. Qed.
Lemma pairs_parsed more sep (l : pairs) rest : more sep = true -> Forall (fun p => literal_ok (snd p)) l -> l <> [] ->
  match rest with [] => True | t :: _ => more t = false end ->
  forall fuel, (length (sep_by [sep] (map equals l) ++ rest) <= fuel)%nat ->
  p_list fuel p_pair more (sep_by [sep] (map equals l) ++ rest) = Some (l, rest).
Proof.
  intros Hs F N R fuel L. rewrite (list_parsed p_pair more sep equals (fun p => p) Hs l fuel rest); [rewrite map_id; reflexivity| |exact N| |exact R].
  - eapply Forall_impl; [|exact F]. intros p H r. apply pair_parsed. exact H.
  - rewrite app_length in L. pose proof (sep_by_length [sep] equals l) as X.
    assert (length l <= length (sep_by [sep] (map equals l)))%nat; [|lia]. apply X. apply Forall_forall. intros p _. cbn. lia.
Qed.

Lemma insert_parsed db tbl cols : cols <> [] -> Forall (fun p => literal_ok (snd p)) cols ->
  parse_statement (insert_tokens db tbl cols) = Some (SInsert db tbl (map fst cols) (map snd cols)).
Proof.
  intros N F. unfold insert_tokens, dotted.
  change (parse_statement ([TkWord (str "INSERT"); TkWord (str "INTO")] ++ ?r)) with (p_insert r).
  set (X := sep_by comma (map (fun p => [TkName (fst p)]) cols) ++ _).
  change (p_insert ([TkName db; TkSym (n2b 46); TkName tbl] ++ [TkSym (n2b 40)] ++ X)) with
    (match p_list (length X) p_name (sym 44) X with
     | Some (cols, q :: v :: p2 :: r) =>
         if sym 41 q && word "VALUES" v && sym 40 p2 then
           match p_list (length r) p_literal (sym 44) r with
           | Some (vals, [q2]) => if sym 41 q2 then Some (SInsert db tbl cols vals) else None
           | _ => None
           end
         else None
     | _ => None
     end).
  unfold X at 2. unfold comma at 1. rewrite (list_parsed p_name (sym 44) (TkSym (n2b 44)) (fun p => [TkName (fst p)]) fst eq_refl cols); try reflexivity; try assumption.
  - cbn [app]. change (sym 41 (TkSym (n2b 41)) && word "VALUES" (TkWord (str "VALUES")) && sym 40 (TkSym (n2b 40))) with true. cbv iota.
    set (Y := sep_by comma (map snd cols) ++ [TkSym (n2b 41)]). unfold Y at 2. unfold comma.
    rewrite (list_parsed p_literal (sym 44) (TkSym (n2b 44)) snd snd eq_refl cols); try reflexivity; try assumption.
    + eapply Forall_impl; [|exact F]. intros p [x V] r. eapply literal_parsed; exact V.
    + unfold Y. rewrite app_length. pose proof (sep_by_length comma (@snd bytes (list token)) cols) as L.
      assert (length cols <= length (sep_by comma (map snd cols)))%nat; [|lia]. apply L. eapply Forall_impl; [|exact F]. intros p [x V]. eapply literal_length; exact V.
  - apply Forall_forall. intros p _ r. reflexivity.
  - unfold X. rewrite app_length. pose proof (sep_by_length comma (fun p : bytes * list token => [TkName (fst p)]) cols) as L.
    assert (length cols <= length (sep_by comma (map (fun p : bytes * list token => [TkName (fst p)]) cols)))%nat; [|lia].
    apply L. apply Forall_forall. intros p _. cbn. lia.
Qed.
Lemma delete_parsed db tbl conds : conds <> [] -> Forall (fun p => literal_ok (snd p)) conds ->
  parse_statement (delete_tokens db tbl conds) = Some (SDelete db tbl conds).
Proof.
  intros N F. unfold delete_tokens, dotted.
  set (X := sep_by [TkWord (str "AND")] (map equals conds)).
  change (parse_statement _) with (match p_list (length X) p_pair (word "AND") X with Some (conds, []) => Some (SDelete db tbl conds) | _ => None end).
  pose proof (pairs_parsed (word "AND") (TkWord (str "AND")) conds [] eq_refl F N I (length X)) as P. rewrite app_nil_r in P. fold X in P. rewrite P; [reflexivity|lia].
Qed.
Lemma update_parsed db tbl sets conds : sets <> [] -> conds <> [] ->
  Forall (fun p => literal_ok (snd p)) sets -> Forall (fun p => literal_ok (snd p)) conds ->
  parse_statement (update_tokens db tbl sets conds) = Some (SUpdate db tbl sets conds).
Proof.
  intros N1 N2 F1 F2. unfold update_tokens, dotted. set (X := sep_by [TkWord (str "AND")] (map equals conds)).
  set (Y := sep_by comma (map equals sets) ++ [TkWord (str "WHERE")] ++ X).
  change (parse_statement _) with (match p_list (length Y) p_pair (sym 44) Y with
     | Some (sets, w :: r) =>
         if word "WHERE" w then
           match p_list (length r) p_pair (word "AND") r with Some (conds, []) => Some (SUpdate db tbl sets conds) | _ => None end
         else None
     | _ => None
     end).
  unfold Y at 2. unfold comma. rewrite (pairs_parsed (sym 44) (TkSym (n2b 44)) sets ([TkWord (str "WHERE")] ++ X) eq_refl F1 N1); [|reflexivity|unfold Y, comma; lia].
  cbn [app]. change (word "WHERE" (TkWord (str "WHERE"))) with true. cbv iota.
  pose proof (pairs_parsed (word "AND") (TkWord (str "AND")) conds [] eq_refl F2 N2 I (length X)) as P. rewrite app_nil_r in P. fold X in P. rewrite P; [reflexivity|lia].
Qed.

(** ** Literals *)
Lemma decimal_app a : forall acc n b, decimal acc a = Some n -> decimal acc (a ++ b) = decimal n b.
Proof. induction a as [|x a IH]; intros acc n b; cbn; [intros [= ->]; reflexivity|]. destruct (is_dig x); [apply IH|discriminate]. Qed.
Lemma decimal_digits k : forall n acc, n < 10 ^ N.of_nat k -> decimal acc (digits k n) = Some (acc * 10 ^ N.of_nat k + n).
Proof.
  induction k as [|k IH]; intros n acc H.
  - change (10 ^ N.of_nat 0) with 1 in *. cbn. f_equal. lia.
  - rewrite Nat2N.inj_succ, N.pow_succ_r' in *. cbn [digits]. erewrite decimal_app by (apply IH; lia).
    cbn [decimal]. unfold is_dig. rewrite digit_val.
    destruct (N.leb_spec 48 (48 + n mod 10)); [|lia]. destruct (N.leb_spec (48 + n mod 10) 57); [|lia].
    cbn [andb]. f_equal. replace (48 + n mod 10 - 48) with (n mod 10) by lia.
    set (p := 10 ^ N.of_nat k). rewrite N.mul_add_distr_l, <- N.add_assoc. f_equal; lia.
Qed.
Lemma decimal_numeral n s : numeral n s -> decimal 0 s = Some n.
Proof. intros (k & -> & L & _). rewrite decimal_digits by exact L. reflexivity. Qed.
Lemma evaluated k x ts : value_tokens x ts -> of_kind k x -> evaluate k ts = Some x.
Proof.
  destruct x as [|z|neg s|s|s]; cbn [value_tokens].
  - intros [-> | ->] _; reflexivity.
  - intros (s & Hs & ->) K. destruct k; try destruct K. apply decimal_numeral in Hs. destruct (Z.ltb_spec z 0); cbn; rewrite Hs; cbn; do 2 f_equal; lia.
  - intros -> K. destruct k; try destruct K. destruct neg; reflexivity.
  - intros -> K. destruct k; try destruct K. reflexivity.
  - intros -> K. destruct k; try destruct K. reflexivity.
Qed.
Lemma equal_spec x y : equal x y = true <-> x = y /\ y <> VNull.
Proof.
  destruct x, y; cbn; try (split; [discriminate|intros [E N]; congruence]).
  - rewrite Z.eqb_eq. split; [intros ->; split; [reflexivity|discriminate]|intros [E _]; congruence].
  - rewrite andb_true_iff, Bool.eqb_true_iff. destruct (beqb_spec s s0); split; intros H; try (destruct H; congruence).
    + destruct H as [-> _]. split; [congruence|discriminate].
    + destruct H as [H _]. injection H as -> ->. auto.
  - destruct (beqb_spec s s0); split; intros H; try (destruct H; congruence); [split; [congruence|discriminate]|congruence].
  - destruct (beqb_spec s s0); split; intros H; try (destruct H; congruence); [split; [congruence|discriminate]|congruence].
Qed.

(** ** Columns *)
Lemma assoc_in {A} name (a : A) l : NoDup (map fst l) -> In (name, a) l -> assoc name l = Some a.
Proof.
  induction l as [|[n x] l IH]; intros N H; [destruct H|]. cbn [map fst] in N. apply NoDup_cons_iff in N as [N1 N]. cbn [assoc].
  destruct H as [H|H]; [injection H as -> ->; destruct (beqb_spec name name); congruence|].
  destruct (beqb_spec n name) as [->|_]; [|apply IH; assumption]. destruct N1. apply in_map_iff. exists (name, a). auto.
Qed.
Lemma combine_fst {A B} (a : list A) : forall b : list B, length a = length b -> map fst (combine a b) = a.
Proof. induction a; intros [|y b] L; try discriminate; [reflexivity|]. cbn. f_equal. apply IHa. injection L; auto. Qed.
Lemma combine_pairs {A B} (l : list (A * B)) : combine (map fst l) (map snd l) = l.
Proof. induction l as [|[a b] l IH]; cbn; congruence. Qed.
Lemma all_some {X B} (f : X -> option B) (h : X -> B) l : Forall (fun x => f x = Some (h x)) l ->
  all (map f l) = Some (map h l).
Proof. induction 1 as [|x l Hx F IH]; [reflexivity|]. cbn. rewrite Hx, IH. reflexivity. Qed.

(** a column, its literal and the value *)
Notation cell := (column_def * list token * sql_value)%type.
Definition c_name (q : cell) : bytes := cd_name (fst (fst q)).
Definition cell_ok (sch : schema) (q : cell) : Prop :=
  value_tokens (snd q) (snd (fst q)) /\ exists k, In (c_name q, k) sch /\ of_kind k (snd q).
Lemma cells ds xs l : cols_tokens ds xs l -> map fst l = ds /\ length l = length xs /\ length ds = length xs.
Proof. induction 1 as [|d x ts ds xs l V C (I1 & I2 & I3)]; [auto|]. cbn. repeat split; congruence. Qed.
Lemma cells_ok SCH : forall ds xs l sch, cols_tokens ds xs l -> typed sch xs -> map fst sch = map cd_name ds -> incl sch SCH ->
  Forall (cell_ok SCH) (combine l xs).
Proof.
  intros ds xs l sch C. revert sch. induction C as [|d x ts ds xs l V C IH]; intros sch T E I; [constructor|].
  inversion T as [|[n k] ? sch' ? K T']; subst. cbn [map fst] in E. injection E as -> E. cbn [combine]. constructor.
  - split; [exact V|]. exists k. split; [apply I; left; reflexivity|exact K].
  - apply (IH sch'); auto. intros p Hp. apply I. right. exact Hp.
Qed.
Lemma resolved sch (qs : list cell) : NoDup (map fst sch) -> Forall (cell_ok sch) qs ->
  resolve sch (map (fun q => (c_name q, snd (fst q))) qs) = Some (map (fun q => (c_name q, snd q)) qs).
Proof.
  intros N F. unfold resolve. rewrite map_map. apply all_some. eapply Forall_impl; [|exact F].
  intros q (V & k & I & K). cbn [fst snd]. rewrite (assoc_in _ _ _ N I), (evaluated _ _ _ V K). reflexivity.
Qed.
Lemma cells_named (l : list (column_def * list token)) : forall xs : list sql_value, length l = length xs ->
  map (fun q => (c_name q, snd (fst q))) (combine l xs) = named l.
Proof. induction l as [|p l IH]; intros [|x xs] L; try discriminate; [reflexivity|]. cbn. f_equal. apply IH. injection L; auto. Qed.
Definition key_cells (l : list (column_def * list token)) (xs : list sql_value) : list cell :=
  filter (fun q => is_key (fst (fst q))) (combine l xs).
Lemma key_named l : forall xs : list sql_value, length l = length xs ->
  map (fun q => (c_name q, snd (fst q))) (key_cells l xs) = named (keys_of l).
Proof.
  induction l as [|p l IH]; intros [|x xs] L; try discriminate; [reflexivity|]. unfold key_cells, keys_of in *. cbn [combine filter fst].
  destruct (is_key (fst p)); cbn; rewrite IH; auto.
Qed.
Lemma Forall_filter {A} (P : A -> Prop) f l : Forall P l -> Forall P (filter f l).
Proof. induction 1; cbn; [constructor|]. destruct (f x); auto. Qed.
Lemma cells_values (l : list (column_def * list token)) : forall xs, length l = length xs ->
  map (fun q => (c_name q, snd q)) (combine l xs) = combine (map cd_name (map fst l)) xs.
Proof. induction l as [|p l IH]; intros [|x xs] L; try discriminate; [reflexivity|]. cbn. f_equal. apply IH. injection L; auto. Qed.

Lemma lookup_all {A} (names : list bytes) (xs : list A) (L : list (bytes * A)) : length names = length xs ->
  Forall (fun p => assoc (fst p) L = Some (snd p)) (combine names xs) ->
  forall d : bytes -> A, map (fun n => match assoc n L with Some x => x | None => d n end) names = xs.
Proof.
  revert xs. induction names as [|n names IH]; intros [|x xs] Len F d; try discriminate; [reflexivity|].
  cbn [combine] in F. apply Forall_cons_iff in F as [E F]. cbn in E. cbn [map]. rewrite E. f_equal. apply IH; [injection Len; auto|exact F].
Qed.
Lemma assoc_own {A} (names : list bytes) (xs : list A) : NoDup names -> length names = length xs ->
  Forall (fun p => assoc (fst p) (combine names xs) = Some (snd p)) (combine names xs).
Proof. intros N L. apply Forall_forall. intros [n x] H. apply assoc_in; [rewrite combine_fst by exact L; exact N|exact H]. Qed.

Lemma assign_all {A} (names : list bytes) (D : list (bytes * A)) : forall r xs : list A, length names = length r -> length names = length xs ->
  Forall (fun p => assoc (fst p) D = Some (snd p)) (combine names xs) ->
  map (fun p => match assoc (fst p) D with Some x => x | None => snd p end) (combine names r) = xs.
Proof.
  induction names as [|n names IH]; intros [|y r] [|x xs] L1 L2 F; try discriminate; [reflexivity|].
  cbn [combine] in F. apply Forall_cons_iff in F as [E F]. cbn [fst snd] in E. cbn [combine map fst snd]. rewrite E. f_equal.
  apply IH; [injection L1; auto|injection L2; auto|exact F].
Qed.

(** ** Rows *)
Lemma typed_length sch r : typed sch r -> length sch = length r.
Proof. intros H. induction H; cbn; congruence. Qed.
Lemma meets_key sch (l : list (column_def * list token)) xs r : NoDup (map fst sch) -> map fst sch = map cd_name (map fst l) ->
  length l = length xs -> length l = length r -> ~ In VNull (key_of (map is_key (map fst l)) xs) ->
  (meets sch (map (fun q => (c_name q, snd q)) (key_cells l xs)) r = true <->
   key_of (map is_key (map fst l)) r = key_of (map is_key (map fst l)) xs).
Proof.
  intros N E L1 L2 NN. unfold meets.
  assert (F : Forall (fun p => assoc (fst p) (combine (map fst sch) r) = Some (snd p)) (combine (map cd_name (map fst l)) r)).
  { rewrite <- E. apply assoc_own; [exact N|]. rewrite E, !map_length. exact L2. }
  revert F. generalize (combine (map fst sch) r). intros D. clear N E sch. revert xs r L1 L2 NN.
  induction l as [|[d ts] l IH]; intros [|x xs] [|y r] L1 L2 NN F; try discriminate; [cbn; tauto|].
  cbn [map fst combine] in F. apply Forall_cons_iff in F as [Ey F]. cbn [fst snd] in Ey.
  injection L1 as L1. injection L2 as L2. unfold key_cells, key_of in *. cbn [map fst combine filter] in *.
  destruct (is_key d).
  - cbn [map snd forallb fst c_name] in *. unfold c_name at 1. cbn [fst]. rewrite Ey, andb_true_iff, equal_spec, (IH xs r L1 L2); [|intros H; apply NN; right; exact H|exact F].
    split; [intros [[-> _] ->]; reflexivity|]. intros H. injection H as -> H. split; [split; [reflexivity|]|exact H].
    intros ->. apply NN. left. reflexivity.
  - apply IH; auto.
Qed.

Section Statement.
  Variables (sch : schema) (defs : list column_def).
  Hypothesis names : map fst sch = map cd_name defs.
  Hypothesis distinct : NoDup (map cd_name defs).
  Notation keys := (map is_key defs).

  Lemma insert_row db tbl rows xs l : cols_tokens defs xs l -> typed sch xs ->
    change_rows sch (SInsert db tbl (map fst (named l)) (map snd (named l))) rows = Some (rows ++ [xs]).
  Proof.
    intros C T. destruct (cells _ _ _ C) as (E & L & L'). cbn [change_rows]. rewrite !map_length, Nat.eqb_refl, combine_pairs, <- (cells_named l xs L).
    rewrite resolved; [|rewrite names; exact distinct|exact (cells_ok sch _ _ _ _ C T names (incl_refl _))]. rewrite cells_values, E by exact L.
    f_equal. f_equal. f_equal. rewrite <- (map_map fst (fun n => match assoc n (combine (map cd_name defs) xs) with Some x => x | None => VNull end)).
    rewrite names. apply (lookup_all (map cd_name defs) xs _ ltac:(rewrite map_length; exact L') (assoc_own _ _ distinct ltac:(rewrite map_length; exact L')) (fun _ => VNull)).
  Qed.
  Lemma keys_resolved xs l : cols_tokens defs xs l -> typed sch xs ->
    resolve sch (named (keys_of l)) = Some (map (fun q => (c_name q, snd q)) (key_cells l xs)).
  Proof.
    intros C T. destruct (cells _ _ _ C) as (E & L & L'). rewrite <- (key_named l xs L). apply resolved; [rewrite names; exact distinct|].
    apply Forall_filter. exact (cells_ok sch _ _ _ _ C T names (incl_refl _)).
  Qed.
  Lemma meets_row xs l r : cols_tokens defs xs l -> typed sch xs -> typed sch r -> ~ In VNull (key_of keys xs) ->
    (meets sch (map (fun q => (c_name q, snd q)) (key_cells l xs)) r = true <-> key_of keys r = key_of keys xs).
  Proof.
    intros C T T' NN. destruct (cells _ _ _ C) as (E & L & L'). rewrite <- E. apply meets_key; [rewrite names; exact distinct|rewrite E; exact names|exact L| |rewrite E; exact NN].
    rewrite L, <- L'. rewrite <- (map_length cd_name), <- names, map_length. apply typed_length. exact T'.
  Qed.
  Lemma key_split a xs b : key_holds keys (a ++ xs :: b) ->
    Forall (fun r => key_of keys r <> key_of keys xs) (a ++ b) /\ ~ In VNull (key_of keys xs).
  Proof.
    intros [N F]. rewrite map_app in N. cbn [map] in N. apply NoDup_remove in N as [_ N]. rewrite <- map_app in N. split.
    - apply Forall_forall. intros r H E. apply N. rewrite <- E. apply in_map. exact H.
    - apply Forall_app in F as [_ F]. apply Forall_cons_iff in F as [F _]. exact F.
  Qed.
  Lemma delete_row db tbl a b xs l : cols_tokens defs xs l -> Forall (typed sch) (a ++ xs :: b) -> key_holds keys (a ++ xs :: b) ->
    change_rows sch (SDelete db tbl (named (keys_of l))) (a ++ xs :: b) = Some (a ++ b).
  Proof.
    intros C T K. apply key_split in K as [K NN]. apply Forall_app in T as [Ta T]. apply Forall_cons_iff in T as [Tx Tb].
    cbn [change_rows]. rewrite (keys_resolved xs l C Tx). f_equal. rewrite filter_app. cbn [filter].
    rewrite (proj2 (meets_row xs l xs C Tx Tx NN) eq_refl). cbn [negb]. apply Forall_app in K as [Ka Kb].
    assert (G : forall rs, Forall (typed sch) rs -> Forall (fun r => key_of keys r <> key_of keys xs) rs ->
      filter (fun r => negb (meets sch (map (fun q => (c_name q, snd q)) (key_cells l xs)) r)) rs = rs).
    { induction rs as [|r rs IH]; intros T K; [reflexivity|]. apply Forall_cons_iff in T as [T1 T2]. apply Forall_cons_iff in K as [K1 K2]. cbn [filter].
      destruct (meets sch _ r) eqn:M; [apply (meets_row xs l r C Tx T1 NN) in M; congruence|]. cbn [negb]. f_equal. apply IH; assumption. }
    exact (f_equal2 (@app row) (G a Ta Ka) (G b Tb Kb)).
  Qed.
  Lemma update_row db tbl a b xs xs' l l' : cols_tokens defs xs l -> cols_tokens defs xs' l' ->
    Forall (typed sch) (a ++ xs :: b) -> typed sch xs' -> key_holds keys (a ++ xs :: b) ->
    change_rows sch (SUpdate db tbl (named l') (named (keys_of l))) (a ++ xs :: b) = Some (a ++ xs' :: b).
  Proof.
    intros C C' T T' K. apply key_split in K as [K NN]. apply Forall_app in T as [Ta T]. apply Forall_cons_iff in T as [Tx Tb].
    cbn [change_rows]. rewrite (keys_resolved xs l C Tx). destruct (cells _ _ _ C') as (E & L & L').
    rewrite <- (cells_named l' xs' L). rewrite resolved; [|rewrite names; exact distinct|exact (cells_ok sch _ _ _ _ C' T' names (incl_refl _))].
    f_equal. rewrite map_app. cbn [map]. rewrite (proj2 (meets_row xs l xs C Tx Tx NN) eq_refl). apply Forall_app in K as [Ka Kb].
    assert (G : forall f rs, Forall (typed sch) rs -> Forall (fun r => key_of keys r <> key_of keys xs) rs ->
      map (fun r => if meets sch (map (fun q => (c_name q, snd q)) (key_cells l xs)) r then f r else r) rs = rs).
    { intros f. induction rs as [|r rs IH]; intros T K; [reflexivity|]. apply Forall_cons_iff in T as [T1 T2]. apply Forall_cons_iff in K as [K1 K2]. cbn [map].
      destruct (meets sch _ r) eqn:M; [apply (meets_row xs l r C Tx T1 NN) in M; congruence|]. f_equal. apply IH; assumption. }
    refine (f_equal2 (@app row) (G _ a Ta Ka) _). refine (f_equal2 (@cons row) _ (G _ b Tb Kb)). 
    rewrite cells_values, E by exact L. unfold Replay.assign.
    rewrite names. apply assign_all; [rewrite <- names, map_length; apply typed_length; exact Tx|rewrite map_length; exact L'|].
    apply assoc_own; [exact distinct|rewrite map_length; exact L'].
  Qed.
End Statement.

(** ** Statements run *)
  Lemma named_literals ds l xs : cols_tokens ds xs l -> Forall (fun p => literal_ok (snd p)) (named l).
  Proof. induction 1 as [|d x ts ds' xs' l' V C IH]; cbn; [constructor|]. constructor; [exists x; exact V|exact IH]. Qed.
  Lemma key_literals ds l xs : cols_tokens ds xs l -> Forall (fun p => literal_ok (snd p)) (named (keys_of l)).
  Proof.
    intros C. assert (F : Forall (fun p => literal_ok (snd p)) l). { induction C; constructor; [eexists; eassumption|assumption]. }
    apply Forall_map. cbn. apply Forall_filter. exact F.
  Qed.
  Lemma named_some ds l xs : cols_tokens ds xs l -> ds <> [] -> named l <> [].
  Proof. intros C. destruct C; [congruence|discriminate]. Qed.
  Lemma keys_some ds l xs : cols_tokens ds xs l -> existsb is_key ds = true -> named (keys_of l) <> [].
  Proof.
    intros C. destruct (cells _ _ _ C) as (<- & _). clear. induction l as [|p l IH]; [discriminate|]. unfold keys_of in *. cbn [map existsb filter].
    destruct (is_key (fst p)); [discriminate|exact IH].
  Qed.
Lemma keyed_defs ds : existsb is_key ds = true -> ds <> [].
Proof. intros H ->. discriminate H. Qed.
Section Run.
  Variables (esc : bool) (db tbl : bytes) (sch : schema) (defs : list column_def) (d1 d2 : database).
  Hypothesis names : map fst sch = map cd_name defs.
  Hypothesis distinct : NoDup (map cd_name defs).
  Hypothesis first : Forall (fun t => is_table db tbl t = false) d1.
  Notation keys := (map is_key defs).
  Notation db_with rows := (d1 ++ mk_table db tbl sch rows :: d2).
  Notation inv := (fun rows => Forall (typed sch) rows /\ key_holds keys rows).

  Lemma executed s rows rows' : target s = (db, tbl) -> change_rows sch s rows = Some rows' ->
    execute (db_with rows) s = Some (db_with rows').
  Proof.
    intros Ht Hc. assert (G : forall d1, Forall (fun t => is_table db tbl t = false) d1 ->
      execute (d1 ++ mk_table db tbl sch rows :: d2) s = Some (d1 ++ mk_table db tbl sch rows' :: d2)); [|exact (G d1 first)].
    clear names distinct first. induction 1 as [|t d1' Ft F IH]; cbn [app execute].
    - rewrite Ht. cbn [fst snd]. unfold is_table. cbn [tb_db tb_name]. destruct (beqb_spec db db); [|congruence]. destruct (beqb_spec tbl tbl); [|congruence].
      cbn [andb tb_schema tb_rows]. rewrite Hc. reflexivity.
    - rewrite Ht. cbn [fst snd]. rewrite Ft, IH. reflexivity.
  Qed.

  Lemma run_insert s (rows : list row) (xs : row) : inserts esc db tbl defs xs s -> defs <> [] -> typed sch xs ->
    run_statement esc (db_with rows) s = Some (db_with (rows ++ [xs])).
  Proof.
    intros (l & C & E) Hd T. unfold run_statement. rewrite E, (insert_parsed _ _ _ (named_some _ _ _ C Hd) (named_literals _ _ _ C)).
    apply executed; [reflexivity|]. apply (insert_row sch defs names distinct). exact C. exact T.
  Qed.
  Lemma run_delete s (a : list row) (xs : row) b : deletes esc db tbl defs xs s -> existsb is_key defs = true -> inv (a ++ xs :: b) ->
    run_statement esc (db_with (a ++ xs :: b)) s = Some (db_with (a ++ b)).
  Proof.
    intros (l & C & E) Hk [T K]. unfold run_statement. rewrite E, (delete_parsed _ _ _ (keys_some _ _ _ C Hk) (key_literals _ _ _ C)).
    apply executed; [reflexivity|]. apply (delete_row sch defs names distinct _ _ _ _ _ _ C T K).
  Qed.
  Lemma run_update s (a : list row) (xs xs' : row) b : updates esc db tbl defs defs xs xs' s -> existsb is_key defs = true -> inv (a ++ xs :: b) -> typed sch xs' ->
    run_statement esc (db_with (a ++ xs :: b)) s = Some (db_with (a ++ xs' :: b)).
  Proof.
    intros (l & l' & C & C' & E) Hk [T K] T'. unfold run_statement.
    rewrite E, (update_parsed _ _ _ _ (named_some _ _ _ C' (keyed_defs _ Hk)) (keys_some _ _ _ C Hk) (named_literals _ _ _ C') (key_literals _ _ _ C)).
    apply executed; [reflexivity|]. apply (update_row sch defs names distinct _ _ _ _ _ _ _ _ C C' T T' K).
  Qed.
  Lemma history_inv (P : list row -> Prop) rows cs rows' : history P rows cs rows' -> P rows.
  Proof. intros H. destruct H; assumption. Qed.

  Lemma replay_inserts : forall (xss : list row) stmts rows rows', Forall2 (fun xs s => inserts esc db tbl defs xs s) xss stmts -> defs <> [] ->
    history inv rows (map CInsert xss) rows' -> run_script esc (db_with rows) stmts = Some (db_with rows').
  Proof.
    induction xss as [|xs xss IH]; intros stmts rows rows' F Hd H; inversion F as [|? s ? stmts' F1 F2]; subst; inversion H as [|? ? mid ? ? I Ch H']; subst; [reflexivity|].
    inversion Ch; subst. cbn [run_script]. pose proof (history_inv _ _ _ _ H') as [T _]. apply Forall_app in T as [_ T]. apply Forall_inv in T.
    rewrite (run_insert _ _ _ F1 Hd T). apply IH; assumption.
  Qed.
  Lemma replay_deletes : forall (xss : list row) stmts rows rows', Forall2 (fun xs s => deletes esc db tbl defs xs s) xss stmts -> existsb is_key defs = true ->
    history inv rows (map CDelete xss) rows' -> run_script esc (db_with rows) stmts = Some (db_with rows').
  Proof.
    induction xss as [|xs xss IH]; intros stmts rows rows' F Hk H; inversion F as [|? s ? stmts' F1 F2]; subst; inversion H as [|? ? mid ? ? I Ch H']; subst; [reflexivity|].
    inversion Ch; subst. cbn [run_script]. rewrite (run_delete _ _ _ _ F1 Hk I). apply IH; assumption.
  Qed.
  Lemma replay_updates : forall (xss : list (row * row)) stmts rows rows', Forall2 (fun xs s => updates esc db tbl defs defs (fst xs) (snd xs) s) xss stmts -> existsb is_key defs = true ->
    history inv rows (map (fun xs => CUpdate (fst xs) (snd xs)) xss) rows' -> run_script esc (db_with rows) stmts = Some (db_with rows').
  Proof.
    induction xss as [|[x x'] xss IH]; intros stmts rows rows' F Hk H; cbn [map fst snd] in H; inversion F as [|? s ? stmts' F1 F2]; subst; inversion H as [|? ? mid ? ? I Ch H']; subst; [reflexivity|].
    inversion Ch; subst. cbn [run_script]. pose proof (history_inv _ _ _ _ H') as [T _]. apply Forall_app in T as [_ T]. apply Forall_inv in T.
    cbn [fst snd] in F1. pose proof (run_update _ _ _ _ _ F1 Hk I T) as R. rewrite R. apply IH; assumption.
  Qed.
End Run.
Lemma script_app esc : forall a d d' b, run_script esc d a = Some d' -> run_script esc d (a ++ b) = run_script esc d' b.
Proof. induction a as [|s a IH]; intros d d' b; cbn; [intros [= ->]; reflexivity|]. destruct (run_statement esc d s); [apply IH|discriminate]. Qed.

(** ** Keys with a NULL *)
Lemma meets_null sch (l : list (column_def * list token)) : forall xs r, length l = length xs ->
  In VNull (key_of (map is_key (map fst l)) xs) -> meets sch (map (fun q => (c_name q, snd q)) (key_cells l xs)) r = false.
Proof.
  unfold meets, key_cells, key_of. induction l as [|[d ts] l IH]; intros [|x xs] r L H; try discriminate; [destruct H|]. injection L as L.
  cbn [map fst combine filter] in *. destruct (is_key d); [|apply IH; assumption]. cbn [map snd forallb fst] in *. apply andb_false_iff.
  destruct H as [->|H]; [left|right; apply IH; assumption]. destruct (assoc _ _) as [y|]; [|reflexivity]. destruct y; reflexivity.
Qed.
