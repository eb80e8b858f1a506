(** C41 and C42 for row images with any set of columns: exactly when the statements and documents
    are right.  Images, and when two values are written the same: Spec/Images.v; statements:
    Spec/SqlSpec.v; documents: Spec/JsonSpec.v. *)
From Coq Require Import Strings.String Lia.
From Verif Require Import Model.Base Model.Utf8 Model.Auth Model.Fmt Model.Time Model.Decimal Model.Col Model.Rows Model.Stmt Model.Transform
  Spec.Nums Spec.BitmapSpec Spec.SqlSpec Spec.JsonSpec Spec.Images Proofs.ImageProofs.
Open Scope N_scope.

(** *** C41 *)
(** Whatever columns are in the image [ds], there is one statement for every row.  It inserts a
    row [ys] if and only if the names hold no backtick and [ys] is written like the first values
    of the decoded row, as many as there are columns in the image. *)
Theorem C41_insert_exact : forall fmt_f32 fmt_f64 esc db tbl r defs xss,
  let ds := present (r_present_bitmap r) defs in
  Forall2 (fun row xs => row_means fmt_f32 fmt_f64 esc ds (firstn (length ds) row) xs) (r_rows r) xss ->
  exists q stmts, sql_from_insert db tbl r defs = Ok q /\ q_dbname q = db /\ sql_list fmt_f32 fmt_f64 q = Ok stmts /\
    Forall2 (fun xs s => forall ys, inserts esc db tbl ds ys s <-> plain_name db /\ plain_name tbl /\ agree any_column ds xs ys) xss stmts.
Proof.
  intros fmt_f32 fmt_f64 esc db tbl r defs xss ds H. destruct (insert_texts fmt_f32 fmt_f64 esc db tbl r defs xss H) as (q & stmts & E1 & E2 & E3 & F).
  exists q, stmts. split; [exact E1|]. split; [exact E2|]. split; [exact E3|]. eapply Forall2_impl; [|exact F].
  intros xs s (cells & C & ->) ys. exact (insert_exact fmt_f32 fmt_f64 esc db tbl _ xs ys cells C).
Qed.
Print Assumptions C41_insert_exact.
(** It deletes the rows with the key of [ys] if and only if that holds of the key columns. *)
Theorem C41_delete_exact : forall fmt_f32 fmt_f64 esc db tbl r defs xss,
  let ds := present (r_present_bitmap r) defs in
  Forall2 (fun row xs => row_means fmt_f32 fmt_f64 esc ds (firstn (length ds) row) xs) (r_rows r) xss ->
  exists q stmts, sql_from_delete db tbl r defs = Ok q /\ q_dbname q = db /\ sql_list fmt_f32 fmt_f64 q = Ok stmts /\
    Forall2 (fun xs s => forall ys, deletes esc db tbl ds ys s <-> plain_name db /\ plain_name tbl /\ agree is_key ds xs ys) xss stmts.
Proof.
  intros fmt_f32 fmt_f64 esc db tbl r defs xss ds H. destruct (delete_texts fmt_f32 fmt_f64 esc db tbl r defs xss H) as (q & stmts & E1 & E2 & E3 & F).
  exists q, stmts. split; [exact E1|]. split; [exact E2|]. split; [exact E3|]. eapply Forall2_impl; [|exact F].
  intros xs s (cells & C & ->) ys. exact (delete_exact fmt_f32 fmt_f64 esc db tbl _ xs ys cells C).
Qed.
Print Assumptions C41_delete_exact.
(** It changes the rows with the key of [ys] to [ys'] if and only if that holds of the columns of
    the after image and of the key columns of the before image. *)
Theorem C41_update_exact : forall fmt_f32 fmt_f64 esc db tbl u defs xss,
  let ds := present (u_before_present_bitmap u) defs in let ds' := present (u_after_present_bitmap u) defs in
  Forall2 (fun row xs => row_means fmt_f32 fmt_f64 esc ds (firstn (length ds) (fst row)) (fst xs) /\
                         row_means fmt_f32 fmt_f64 esc ds' (firstn (length ds') (snd row)) (snd xs)) (u_rows u) xss ->
  exists q stmts, sql_from_update db tbl u defs = Ok q /\ q_dbname q = db /\ sql_list fmt_f32 fmt_f64 q = Ok stmts /\
    Forall2 (fun xs s => forall ys ys', updates esc db tbl ds ds' ys ys' s <->
      plain_name db /\ plain_name tbl /\ agree any_column ds' (snd xs) ys' /\ agree is_key ds (fst xs) ys) xss stmts.
Proof.
  intros fmt_f32 fmt_f64 esc db tbl u defs xss ds ds' H. destruct (update_texts fmt_f32 fmt_f64 esc db tbl u defs xss H) as (q & stmts & E1 & E2 & E3 & F).
  exists q, stmts. split; [exact E1|]. split; [exact E2|]. split; [exact E3|]. eapply Forall2_impl; [|exact F].
  intros xs s (cells & cells' & C & C' & ->) ys ys'. exact (update_exact fmt_f32 fmt_f64 esc db tbl _ _ _ _ ys ys' cells cells' C C').
Qed.
Print Assumptions C41_update_exact.
(** The images that C41_insert, C41_delete and C41_update speak of are those without a gap. *)
Theorem C41_gap_exact : forall n bitmap, (n <= 8 * length bitmap)%nat -> ((exists k, first_present n k bitmap) <-> ~ gap bitmap n).
Proof.
  intros n bitmap L. rewrite <- no_gap. split; intros (k & H); exists k; [exact (proj2 H)|split; assumption].
Qed.
Print Assumptions C41_gap_exact.
(** Finding: with a gap, no row whose present columns are all not NULL is inserted by its
    statement, or set by it. *)
Theorem C41_gap_refuted : forall fmt_f32 fmt_f64 esc db tbl r defs xss yss,
  let bitmap := r_present_bitmap r in let ds := present bitmap defs in
  gap bitmap (length defs) ->
  Forall (fun row => length row = length defs /\ absent_null bitmap row /\ ~ In LNull (present bitmap row)) (r_rows r) ->
  Forall2 (fun row xs => row_means fmt_f32 fmt_f64 esc ds (firstn (length ds) row) xs) (r_rows r) xss ->
  Forall2 (fun row ys => row_logged fmt_f32 fmt_f64 ds (present bitmap row) ys) (r_rows r) yss ->
  exists q stmts, sql_from_insert db tbl r defs = Ok q /\ sql_list fmt_f32 fmt_f64 q = Ok stmts /\
    Forall2 (fun ys s => ~ inserts esc db tbl ds ys s) yss stmts.
Proof.
  intros fmt_f32 fmt_f64 esc db tbl r defs xss yss bitmap ds G N Hx Hy.
  destruct (C41_insert_exact fmt_f32 fmt_f64 esc db tbl r defs xss Hx) as (q & stmts & E1 & _ & E2 & F). exists q, stmts. split; [exact E1|]. split; [exact E2|].
  clear E1 E2 q. fold bitmap in F. fold ds in F. revert xss yss stmts N Hx Hy F. generalize (r_rows r). induction l as [|row rows IH]; intros xss yss stmts N Hx Hy F.
  - inversion Hy; subst. inversion Hx; subst. inversion F; subst. constructor.
  - inversion Hy as [|? ys ? yss' Y Hy']; subst. inversion Hx as [|? xs ? xss' X Hx']; subst. inversion F as [|? s ? stmts' F1 F2]; subst.
    inversion N as [|? ? (N1 & N2 & N3) N4]; subst. constructor; [|eapply IH; eassumption].
    intros K. apply F1 in K as (_ & _ & A). exact (gap_disagrees fmt_f32 fmt_f64 esc bitmap defs row xs ys G N1 N2 N3 X Y A).
Qed.
Print Assumptions C41_gap_refuted.
Theorem C41_update_gap_refuted : forall fmt_f32 fmt_f64 esc db tbl u defs xss yss,
  let ds := present (u_before_present_bitmap u) defs in let bitmap := u_after_present_bitmap u in let ds' := present bitmap defs in
  gap bitmap (length defs) ->
  Forall (fun row => length (snd row) = length defs /\ absent_null bitmap (snd row) /\ ~ In LNull (present bitmap (snd row))) (u_rows u) ->
  Forall2 (fun row xs => row_means fmt_f32 fmt_f64 esc ds (firstn (length ds) (fst row)) (fst xs) /\
                         row_means fmt_f32 fmt_f64 esc ds' (firstn (length ds') (snd row)) (snd xs)) (u_rows u) xss ->
  Forall2 (fun row ys => row_logged fmt_f32 fmt_f64 ds' (present bitmap (snd row)) ys) (u_rows u) yss ->
  exists q stmts, sql_from_update db tbl u defs = Ok q /\ sql_list fmt_f32 fmt_f64 q = Ok stmts /\
    Forall2 (fun ys' s => forall ys, ~ updates esc db tbl ds ds' ys ys' s) yss stmts.
Proof.
  intros fmt_f32 fmt_f64 esc db tbl u defs xss yss ds bitmap ds' G N Hx Hy.
  destruct (C41_update_exact fmt_f32 fmt_f64 esc db tbl u defs xss Hx) as (q & stmts & E1 & _ & E2 & F). exists q, stmts. split; [exact E1|]. split; [exact E2|].
  clear E1 E2 q. fold bitmap in F. fold ds in F. fold ds' in F. revert xss yss stmts N Hx Hy F. generalize (u_rows u). induction l as [|row rows IH]; intros xss yss stmts N Hx Hy F.
  - inversion Hy; subst. inversion Hx; subst. inversion F; subst. constructor.
  - inversion Hy as [|? ys ? yss' Y Hy']; subst. inversion Hx as [|? xs ? xss' [_ X] Hx']; subst. inversion F as [|? s ? stmts' F1 F2]; subst.
    inversion N as [|? ? (N1 & N2 & N3) N4]; subst. constructor; [|eapply IH; eassumption].
    intros ys0 K. apply F1 in K as (_ & _ & A & _). exact (gap_disagrees fmt_f32 fmt_f64 esc bitmap defs (snd row) (snd xs) ys G N1 N2 N3 X Y A).
Qed.
Print Assumptions C41_update_gap_refuted.

(** *** C42 *)
(** One document for every row.  It stands for a row [vs] of the columns in the image, which is
    [ys], if and only if that row is the same in JSON as the first values of the decoded row. *)
Theorem C42_insert_exact : forall widen fmt_f32 fmt_f64 db tbl r defs xss,
  let ds := present (r_present_bitmap r) defs in NoDup (map cd_name defs) ->
  Forall2 (fun row xs => json_readable widen fmt_f32 fmt_f64 ds (firstn (length ds) row) xs) (r_rows r) xss ->
  exists docs, json_from_insert widen db tbl r defs = Ok docs /\
    forall3 (fun row xs doc => forall vs ys, json_insert widen fmt_f32 fmt_f64 db tbl ds vs ys doc <->
      json_agree widen fmt_f32 fmt_f64 ds (firstn (length ds) row) xs vs ys) (r_rows r) xss docs.
Proof. exact insert_docs. Qed.
Print Assumptions C42_insert_exact.
Theorem C42_delete_exact : forall widen fmt_f32 fmt_f64 db tbl r defs xss,
  let ds := present (r_present_bitmap r) defs in NoDup (map cd_name defs) ->
  Forall2 (fun row xs => json_readable widen fmt_f32 fmt_f64 ds (firstn (length ds) row) xs) (r_rows r) xss ->
  exists docs, json_from_delete widen db tbl r defs = Ok docs /\
    forall3 (fun row xs doc => forall vs ys, json_delete widen fmt_f32 fmt_f64 db tbl ds vs ys doc <->
      json_agree widen fmt_f32 fmt_f64 ds (firstn (length ds) row) xs vs ys) (r_rows r) xss docs.
Proof. exact delete_docs. Qed.
Print Assumptions C42_delete_exact.
(** Updates: the document stands for the first values of the two decoded rows. *)
Theorem C42_update_image : forall widen fmt_f32 fmt_f64 db tbl u defs xss,
  let ds := present (u_before_present_bitmap u) defs in let ds' := present (u_after_present_bitmap u) defs in NoDup (map cd_name defs) ->
  Forall2 (fun row xs => json_readable widen fmt_f32 fmt_f64 ds (firstn (length ds) (fst row)) (fst xs) /\
                         json_readable widen fmt_f32 fmt_f64 ds' (firstn (length ds') (snd row)) (snd xs)) (u_rows u) xss ->
  exists docs, json_from_update widen db tbl u defs = Ok docs /\
    forall3 (fun row xs doc => json_update widen fmt_f32 fmt_f64 db tbl
               ds (firstn (length ds) (fst row)) (fst xs) ds' (firstn (length ds') (snd row)) (snd xs) doc) (u_rows u) xss docs.
Proof. exact update_docs. Qed.
Print Assumptions C42_update_image.
(** Finding: with a gap, no document stands for its row if the present columns are not NULL. *)
Theorem C42_gap_refuted : forall widen fmt_f32 fmt_f64 db tbl r defs xss,
  let bitmap := r_present_bitmap r in let ds := present bitmap defs in NoDup (map cd_name defs) ->
  gap bitmap (length defs) ->
  Forall (fun row => length row = length defs /\ absent_null bitmap row /\ ~ In LNull (present bitmap row)) (r_rows r) ->
  Forall2 (fun row xs => json_readable widen fmt_f32 fmt_f64 ds (firstn (length ds) row) xs) (r_rows r) xss ->
  exists docs, json_from_insert widen db tbl r defs = Ok docs /\
    Forall2 (fun row doc => forall ys, ~ json_insert widen fmt_f32 fmt_f64 db tbl ds (present bitmap row) ys doc) (r_rows r) docs.
Proof.
  intros widen fmt_f32 fmt_f64 db tbl r defs xss bitmap ds U G N Hx.
  destruct (C42_insert_exact widen fmt_f32 fmt_f64 db tbl r defs xss U Hx) as (docs & E & F). exists docs. split; [exact E|].
  clear E. fold bitmap in F. fold ds in F. induction F as [|row xs doc rows xss docs F1 _ IH]; [constructor|].
  inversion Hx as [|? ? ? ? X Hx']; subst. inversion N as [|? ? (N1 & N2 & N3) N4]; subst. constructor; [|apply IH; assumption].
  intros ys K. apply F1 in K. exact (gap_disagrees_json widen fmt_f32 fmt_f64 bitmap defs row xs ys G N1 N2 N3 X K).
Qed.
Print Assumptions C42_gap_refuted.

(** a table t(k INT PRIMARY KEY, v VARCHAR) of which a row image holds only v *)
Definition int_k : column_def := mk_cd (str "def") (str "d") (str "t") (str "t") (str "k") (str "k") 63 11 TLong 0x4003 0 [].
Definition text_v : column_def := mk_cd (str "def") (str "d") (str "t") (str "t") (str "v") (str "v") 33 30 TVarString 0 0 [].
Example C41_images_example : forall fmt_f32 fmt_f64,
  let row := [LNull; LVarString (str "a")] in
  present [x02] [int_k; text_v] = [text_v] /\ gap [x02] 2 /\ absent_null [x02] row /\ ~ In LNull (present [x02] row) /\
  row_means fmt_f32 fmt_f64 true [text_v] (firstn 1 row) [VNull] /\ row_logged fmt_f32 fmt_f64 [text_v] (present [x02] row) [VText (str "a")] /\
  ~ agree any_column [text_v] [VNull] [VText (str "a")] /\ agree is_key [text_v] [VNull] [VText (str "a")] /\
  (* values that happen to agree *)
  present [x05] [int_k; text_v; int_k] = [int_k; int_k] /\ gap [x05] 3 /\
  agree any_column [int_k; int_k] [VInt 7; VNull] [VInt 7; VNull].
Proof.
  intros. split; [reflexivity|]. split; [exists 0%nat, 1%nat; repeat split; lia|].
  split; [intros [|[|[|i]]] v H B; cbn in H; try discriminate; injection H as <-; reflexivity|].
  split; [intros [K|[]]; discriminate|]. split; [apply rm_cons; [apply lg_null|exact I|apply rm_nil]|].
  split; [apply rl_cons; [apply lg_varstring|apply rl_nil]|].
  split. { intros A. inversion A as [|? ? ? ? ? ? H _]; subst. destruct (H eq_refl) as [_ (ts & [-> | ->] & K)]; discriminate K. }
  split; [apply ag_cons; [discriminate|apply ag_nil]|]. split; [reflexivity|]. split; [exists 1%nat, 2%nat; repeat split; lia|].
  assert (R : forall z, exists ts, value_tokens z ts) by (apply value_tokens_exist).
  apply ag_cons; [intros _; split; [intros [K|[]]; discriminate|destruct (R (VInt 7)) as (ts & H); exists ts; split; exact H]|].
  apply ag_cons; [intros _; split; [intros [K|[]]; discriminate|destruct (R VNull) as (ts & H); exists ts; split; exact H]|]. apply ag_nil.
Qed.
Example C42_images_example : forall widen fmt_f32 fmt_f64,
  let row := [LNull; LVarString (str "a")] in
  NoDup (map cd_name [int_k; text_v]) /\ json_readable widen fmt_f32 fmt_f64 [text_v] (firstn 1 row) [VNull] /\
  ~ json_agree widen fmt_f32 fmt_f64 [text_v] [LNull] [VNull] [LVarString (str "a")] [VText (str "a")].
Proof.
  intros. split; [repeat constructor; cbn; intuition discriminate|]. split; [apply jr_cons; [apply lg_null|exact I|apply jr_nil]|].
  intros A. inversion A as [|? ? ? ? ? ? ? ? ? ? _ S _]; subst. destruct S as ((j & M1 & M2) & _). cbn in M1, M2. subst j. discriminate.
Qed.
