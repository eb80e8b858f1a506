(** * Proofs about the first changes of a log (C66) *)
From Coq Require Import List NArith ZArith Lia Arith Bool.
From Verif Require Import Model.Base Model.Utf8 Model.Fmt Model.Col Model.Row Model.Rows Model.Event Model.Stmt Model.Transform Model.MyBinlog
  Spec.Wire Spec.Session Spec.Commands Spec.SqlSpec Spec.Replay Spec.DmlSpec Spec.ReplayLog Spec.BinlogSpec Spec.StreamSpec Spec.ServerLog
  Proofs.BaseLemmas Proofs.SqlProofs Proofs.SqlStmtProofs Proofs.ReplayProofs Proofs.DmlProofs Proofs.ReplayLogProofs Proofs.ServerLogProofs.
Import ListNotations.
Open Scope N_scope.

Lemma history_prefix (P : list row -> Prop) rows cs rows' : history P rows cs rows' -> forall k, exists mid, history P rows (firstn k cs) mid.
Proof.
  induction 1 as [rows I|rows c rows' cs rows'' I Ch _ IH]; intros k.
  - exists rows. rewrite firstn_nil. constructor. exact I.
  - destruct k as [|k]; [exists rows; constructor; exact I|]. destruct (IH k) as (mid & M). exists mid. cbn [firstn]. econstructor; eassumption.
Qed.
Lemma Forall2_firstn {A B} (R : A -> B -> Prop) l l' : Forall2 R l l' -> forall k, Forall2 R (firstn k l) (firstn k l').
Proof. induction 1; intros [|k]; cbn [firstn]; constructor; auto. Qed.

Lemma limited_prefix n stmts out : n <> 0 -> limited n (map LStmt stmts) out -> out = map LStmt (firstn (N.to_nat n) stmts).
Proof.
  assert (L : forall l, n_stmts (map LStmt l) = N.of_nat (length l)).
  { induction l as [|x l IH]; [reflexivity|]. cbn [map n_stmts length]. rewrite IH. lia. }
  intros Hn. unfold limited. rewrite (proj2 (N.eqb_neq _ _) Hn). cbn [orb]. rewrite L.
  destruct (N.of_nat (length stmts) <? n) eqn:E; [apply N.ltb_lt in E|apply N.ltb_ge in E].
  - intros ->. rewrite firstn_all2 by lia. reflexivity.
  - intros (Ho & b & s & rest & -> & E'). assert (X : exists a c, stmts = a ++ c /\ map LStmt a = b ++ [LStmt s]).
    { revert E'. generalize (b ++ [LStmt s]). clear. intros l. revert stmts. induction l as [|x l IH]; intros stmts E; [exists [], stmts; auto|].
      destruct stmts as [|y stmts]; [discriminate|]. cbn in E. injection E as <- E. destruct (IH _ E) as (a & c & -> & <-). exists (y :: a), c. auto. }
    destruct X as (a & c & -> & X). rewrite <- X in *. rewrite L in Ho. rewrite firstn_app. replace (N.to_nat n) with (length a) by lia.
    rewrite firstn_all, Nat.sub_diag. cbn [firstn]. rewrite app_nil_r. reflexivity.
Qed.

Section Log.
  Variables fmt_f32 fmt_f64 : N -> bytes.
  Variable esc : bool.
  Section Event.
    Variables (db tbl : bytes) (defs : list column_def) (sch : schema) (d1 d2 : database).
    Hypothesis names : plain_name db /\ plain_name tbl.
    Hypothesis desc : describes defs sch.
    Hypothesis first : Forall (fun t => is_table db tbl t = false) d1.
    Notation db_with rows := (d1 ++ mk_table db tbl sch rows :: d2).
    (** a statement a change, so that any number of them makes as many changes *)
    Definition stepwise (rows : list row) (cs : list change) (stmts : list bytes) : Prop :=
      length stmts = length cs /\
      forall k mid, history (sound defs sch) rows (firstn k cs) mid -> run_script esc (db_with rows) (firstn k stmts) = Some (db_with mid).
    Lemma inserts_stepwise r cs rows : says_inserts fmt_f32 fmt_f64 esc defs r cs -> defs <> [] ->
      exists stmts, rbind (sql_from_insert db tbl r defs) (sql_list fmt_f32 fmt_f64) = Ok stmts /\ stepwise rows cs stmts.
    Proof.
      intros [xss P F] Hd. destruct names as [N1 N2], desc as (E & D & N3).
      destruct (insert_statements fmt_f32 fmt_f64 esc db tbl r defs (length defs) xss N1 N2 N3 P) as (q & stmts & Q1 & _ & Q2 & S).
      { clear - F. induction F; constructor; [apply full_row; assumption|assumption]. }
      exists stmts. rewrite Q1. cbn [rbind]. split; [exact Q2|]. rewrite firstn_all in S. split; [rewrite map_length; symmetry; exact (Forall2_length S)|].
      intros k mid H. rewrite firstn_map in H.
      exact (replay_inserts esc db tbl sch defs d1 d2 E D first (firstn k xss) (firstn k stmts) rows mid (Forall2_firstn _ _ _ S k) Hd H).
    Qed.
    Lemma deletes_stepwise r cs rows : says_deletes fmt_f32 fmt_f64 esc defs r cs -> existsb is_key defs = true ->
      exists stmts, rbind (sql_from_delete db tbl r defs) (sql_list fmt_f32 fmt_f64) = Ok stmts /\ stepwise rows cs stmts.
    Proof.
      intros [xss P F] Hd. destruct names as [N1 N2], desc as (E & D & N3).
      destruct (delete_statements fmt_f32 fmt_f64 esc db tbl r defs (length defs) xss N1 N2 N3 P) as (q & stmts & Q1 & _ & Q2 & S).
      { clear - F. induction F; constructor; [apply full_row; assumption|assumption]. }
      exists stmts. rewrite Q1. cbn [rbind]. split; [exact Q2|]. rewrite firstn_all in S. split; [rewrite map_length; symmetry; exact (Forall2_length S)|].
      intros k mid H. rewrite firstn_map in H.
      exact (replay_deletes esc db tbl sch defs d1 d2 E D first (firstn k xss) (firstn k stmts) rows mid (Forall2_firstn _ _ _ S k) Hd H).
    Qed.
    Lemma updates_stepwise u cs rows : says_updates fmt_f32 fmt_f64 esc defs u cs -> existsb is_key defs = true ->
      exists stmts, rbind (sql_from_update db tbl u defs) (sql_list fmt_f32 fmt_f64) = Ok stmts /\ stepwise rows cs stmts.
    Proof.
      intros [xss P P' F] Hd. destruct names as [N1 N2], desc as (E & D & N3).
      destruct (update_statements fmt_f32 fmt_f64 esc db tbl u defs (length defs) (length defs) xss N1 N2 N3 P P') as (q & stmts & Q1 & _ & Q2 & S).
      { clear - F. induction F as [|? ? ? ? [F1 F2] F IH]; constructor; [split; apply full_row; assumption|assumption]. }
      exists stmts. rewrite Q1. cbn [rbind]. split; [exact Q2|]. rewrite firstn_all in S. split; [rewrite map_length; symmetry; exact (Forall2_length S)|].
      intros k mid H. rewrite firstn_map in H.
      exact (replay_updates esc db tbl sch defs d1 d2 E D first (firstn k xss) (firstn k stmts) rows mid (Forall2_firstn _ _ _ S k) Hd H).
    Qed.
  End Event.

  Variable passes : table_map -> bool.
  Variable chosen : declared -> bool.
  Variable defs_of : bytes -> bytes -> list column_def.
  Hypothesis Hpass : forall t, passes (tm_of t) = chosen t.
  Lemma lines_stepwise c rd pos tm cs sch d1 d2 rows :
    let db := tm_schema_name tm in let tbl := tm_table_name tm in let defs := defs_of db tbl in
    says fmt_f32 fmt_f64 esc defs_of tm c rd cs -> plain_name db -> plain_name tbl -> describes defs sch -> Forall (fun t => is_table db tbl t = false) d1 ->
    exists stmts, row_lines fmt_f32 fmt_f64 defs_of c rd pos tm = Ok (map LStmt stmts) /\ stepwise db tbl defs sch d1 d2 rows cs stmts.
  Proof.
    intros db tbl defs S N1 N2 D F. unfold row_lines. destruct c; cbn [says] in S; fold db tbl defs in S |- *.
    - destruct S as [Hd (r & -> & S)]. cbn [rbind]. destruct (inserts_stepwise db tbl defs sch d1 d2 (conj N1 N2) D F r cs rows S Hd) as (stmts & Q & R).
      exists stmts. split; [exact (rmap_stmts _ _ _ _ Q)|exact R].
    - destruct S as [Hd (u & -> & S)]. cbn [rbind]. rewrite Hd. apply keyed_key in Hd.
      destruct (updates_stepwise db tbl defs sch d1 d2 (conj N1 N2) D F u cs rows S Hd) as (stmts & Q & R).
      exists stmts. split; [exact (rmap_stmts _ _ _ _ Q)|exact R].
    - destruct S as [Hd (r & -> & S)]. cbn [rbind]. destruct (deletes_stepwise db tbl defs sch d1 d2 (conj N1 N2) D F r cs rows S Hd) as (stmts & Q & R).
      exists stmts. split; [exact (rmap_stmts _ _ _ _ Q)|exact R].
  Qed.

  Lemma first_none_nil es : first_changes 0 es = [].
  Proof. destruct es; reflexivity. Qed.
  Lemma first_none rs es d : server_history chosen rs (first_changes 0 es) d d.
  Proof. rewrite first_none_nil. apply sh_nil. Qed.
  Lemma log_stepwise rs es d d' : server_history chosen rs es d d' -> forall rits its, stands_all fmt_f32 fmt_f64 esc rs rits -> stands_all fmt_f32 fmt_f64 esc es its ->
    (forall id t, In (EMap id t) (rs ++ es) -> chosen t = true -> Forall2 told (dc_cols t) (defs_of (dc_db t) (dc_name t))) ->
    exists stmts, printed fmt_f32 fmt_f64 passes defs_of latest rits its = Ok (map LStmt stmts) /\
      (forall k, exists mid, run_script esc d (firstn k stmts) = Some mid /\ server_history chosen rs (first_changes k es) d mid).
  Proof.
    assert (Shift : forall (e : entry) rs es, (forall id t, In (EMap id t) (rs ++ e :: es) -> chosen t = true -> Forall2 told (dc_cols t) (defs_of (dc_db t) (dc_name t))) ->
      forall id t, In (EMap id t) ((e :: rs) ++ es) -> chosen t = true -> Forall2 told (dc_cols t) (defs_of (dc_db t) (dc_name t))).
    { intros e rs0 es0 H id t I. apply (H id). rewrite in_app_iff in *. cbn [In] in *. tauto. }
    induction 1 as [rs d|rs e es id t d1 rows rows' d2 d' C M Ch Rp Pn F Hi _ IH|rs id es d d' M _ IH|rs id t es d d' _ IH|rs es d d' _ IH|rs es d d' _ IH];
      intros rits its R S T.
    - inversion S; subst. exists []. split; [reflexivity|]. intros k. exists d. rewrite firstn_nil. split; [reflexivity|]. cbn [first_changes]. destruct (k =? 0)%nat; apply sh_nil.
    - inversion S as [|? it ? its' S1 S2|]; subst; [|discriminate C].
      assert (Tt : Forall2 told (dc_cols t) (defs_of (dc_db t) (dc_name t))).
      { apply (T id); [apply in_or_app; left; apply mapped_in; exact M|exact Ch]. }
      destruct (change_says fmt_f32 fmt_f64 esc defs_of e id t it _ C S1 Rp Tt eq_refl) as (c & rd & pos & -> & Sy).
      destruct (lines_stepwise c rd pos (tm_of t) (changes_of e) (dc_schema t) d1 d2 rows Sy) as (sts & L & (Ln & St)); [apply Pn|apply Pn|apply told_describes; assumption|exact F|].
      destruct (IH (IRows c id rd pos :: rits) its' (sa_cons _ _ _ _ _ _ _ S1 R) S2 (Shift _ _ _ T)) as (st & IH1 & IH2).
      assert (Hs : forall k mid, history (rows_ok t) rows (firstn k (changes_of e)) mid ->
        run_script esc (d1 ++ holding t rows :: d2) (firstn k sts) = Some (d1 ++ holding t mid :: d2)).
      { intros k mid X. apply St. cbn [tm_of tm_schema_name tm_table_name]. unfold sound. rewrite (proj1 (told_keys _ _ Tt)). exact X. }
      exists (sts ++ st). split.
      { cbn [printed]. rewrite (mapped_latest fmt_f32 fmt_f64 esc _ _ R), M. cbn [option_map]. rewrite Hpass, Ch, L. cbn [rbind]. rewrite IH1. cbn [rmap]. rewrite map_app. reflexivity. }
      intros k. destruct k as [|k']; [exists (d1 ++ holding t rows :: d2); split; [reflexivity|apply first_none]|]. assert (K0 : exists k, k = Datatypes.S k') by eauto. destruct K0 as (k & Ek). rewrite <- Ek.
      assert (K0 : (k =? 0)%nat = false) by (subst k; reflexivity). clear k' Ek.
      destruct (Nat.leb (length (changes_of e)) k) eqn:Hk; [apply Nat.leb_le in Hk|apply Nat.leb_gt in Hk].
      + destruct (IH2 (k - length (changes_of e))%nat) as (mid & X1 & X2). exists mid. rewrite firstn_app, (firstn_all2 sts) by lia. rewrite Ln.
        split; [|].
        * rewrite (script_app _ _ _ _ _ (eq_trans (f_equal _ (eq_sym (firstn_all2 sts (n := length sts) (le_n _)))) (Hs (length sts) rows' ltac:(rewrite Ln, firstn_all; exact Hi)))). exact X1.
        * assert (Q : first_changes k (e :: es) = e :: first_changes (k - length (changes_of e)) es).
          { destruct e; try discriminate C; cbn [first_changes changes_of] in *; rewrite K0, map_length in *; rewrite firstn_all2 by lia; reflexivity. }
          rewrite Q. eapply sh_change; eassumption.
      + destruct (history_prefix _ _ _ _ Hi k) as (mid & X). exists (d1 ++ holding t mid :: d2). rewrite firstn_app, Ln.
        replace (k - length (changes_of e))%nat with 0%nat by lia. cbn [firstn]. rewrite app_nil_r. split; [apply Hs, X|].
        destruct e as [|i' t' l|i' t' l|i' t' l| | |]; try discriminate C; cbn [first_changes changes_of] in *; rewrite map_length in *; rewrite K0;
          replace (k - length l)%nat with 0%nat by lia; rewrite first_none_nil;
          (eapply sh_change; [exact C|exact M|exact Ch|exact Rp|exact Pn|exact F|cbn [changes_of]; rewrite <- firstn_map; exact X|apply sh_nil]).
    - inversion S as [|? it ? its' S1 S2|]; subst. inversion S1; subst.
      edestruct IH as (st & IH1 & IH2); [apply sa_cons; eassumption|exact S2|apply Shift, T|].
      exists st. split; [|intros k; destruct (IH2 k) as (mid & X1 & X2); exists mid; split; [exact X1|]; cbn [first_changes]; destruct (k =? 0)%nat eqn:K0; [apply Nat.eqb_eq in K0; subst k; injection X1 as <-; apply sh_nil|apply sh_foreign; assumption]].
      cbn [printed]. rewrite (mapped_latest fmt_f32 fmt_f64 esc _ _ R). destruct (mapped rs id); cbn [option_map]; rewrite ?Hpass, ?M; cbn [rbind]; rewrite IH1; reflexivity.
    - inversion S as [|? it ? its' S1 S2|]; subst. inversion S1; subst.
      edestruct IH as (st & IH1 & IH2); [apply sa_cons; eassumption|exact S2|apply Shift, T|].
      exists st. split; [cbn [printed rbind]; rewrite IH1; reflexivity|]. intros k; destruct (IH2 k) as (mid & X1 & X2); exists mid; split; [exact X1|]; cbn [first_changes]; destruct (k =? 0)%nat eqn:K0; [apply Nat.eqb_eq in K0; subst k; injection X1 as <-; apply sh_nil|apply sh_map; assumption].
    - inversion S as [|? it ? its' S1 S2|]; subst. inversion S1; subst.
      edestruct IH as (st & IH1 & IH2); [apply sa_cons; eassumption|exact S2|apply Shift, T|].
      exists st. split; [cbn [printed rbind]; rewrite IH1; reflexivity|]. intros k; destruct (IH2 k) as (mid & X1 & X2); exists mid; split; [exact X1|]; cbn [first_changes]; destruct (k =? 0)%nat eqn:K0; [apply Nat.eqb_eq in K0; subst k; injection X1 as <-; apply sh_nil|apply sh_rotate; assumption].
    - inversion S as [|? it ? its' S1 S2|? its' S2]; subst.
      + inversion S1; subst. edestruct IH as (st & IH1 & IH2); [apply sa_cons; eassumption|exact S2|apply Shift, T|].
        exists st. split; [cbn [printed rbind]; rewrite IH1; reflexivity|]. intros k; destruct (IH2 k) as (mid & X1 & X2); exists mid; split; [exact X1|]; cbn [first_changes]; destruct (k =? 0)%nat eqn:K0; [apply Nat.eqb_eq in K0; subst k; injection X1 as <-; apply sh_nil|apply sh_other; assumption].
      + edestruct IH as (st & IH1 & IH2); [apply sa_drop; eassumption|exact S2|apply Shift, T|].
        exists st. split; [exact IH1|]. intros k; destruct (IH2 k) as (mid & X1 & X2); exists mid; split; [exact X1|]; cbn [first_changes]; destruct (k =? 0)%nat eqn:K0; [apply Nat.eqb_eq in K0; subst k; injection X1 as <-; apply sh_nil|apply sh_other; assumption].
  Qed.

  Lemma server_side_limit sum b es entries before after : Forall (log_event_ok sum) es -> Forall2 (logs fmt_f32 fmt_f64 esc) es entries ->
    stable [] (within b entries) -> server_history chosen [] (within b entries) before after -> unaltered chosen defs_of (within b entries) ->
    Forall (fun t => no_nul (dc_name t)) (first_mapped chosen [] (within b entries)) ->
    exists items stmts, Forall2 means (reported sum es) items /\ consistent [] (scope b items) /\
      printed fmt_f32 fmt_f64 passes defs_of latest [] (scope b items) = Ok (map LStmt stmts) /\
      (forall k, exists mid, run_script esc before (firstn k stmts) = Some mid /\ server_history chosen [] (first_changes k (within b entries)) before mid) /\
      lookups passes latest [] (scope b items) = map tm_of (first_mapped chosen [] (within b entries)) /\
      Forall names_ok (lookups passes latest [] (scope b items)).
  Proof.
    intros Ho F St H U N. destruct (log_stands fmt_f32 fmt_f64 esc sum es entries Ho F) as (items & M & S). pose proof (within_stands fmt_f32 fmt_f64 esc b _ _ S) as W.
    destruct (log_stepwise _ _ _ _ H [] (scope b items) (sa_nil _ _ _) W U) as (stmts & P & R).
    exists items, stmts. pose proof (first_lookups fmt_f32 fmt_f64 esc passes chosen Hpass _ _ W [] [] (sa_nil _ _ _)) as L.
    split; [exact M|]. split; [exact (stable_consistent fmt_f32 fmt_f64 esc _ _ W [] [] (sa_nil _ _ _) St)|]. split; [exact P|]. split; [exact R|]. split; [exact L|].
    rewrite L. apply names_told; [|exact N]. exact (first_declared fmt_f32 fmt_f64 esc chosen _ _ W []).
  Qed.
End Log.
