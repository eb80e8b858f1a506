(** * Proofs: replaying a log *)
From Coq Require Import Strings.String.
From Coq Require Import List NArith ZArith Lia Arith Bool.
From Verif Require Import Model.Base Model.Auth Model.Fmt Model.Col Model.Row Model.Rows Model.Event Model.Transform
  Spec.SqlSpec Spec.Replay Spec.DmlSpec Spec.ReplayLog Proofs.BaseLemmas Proofs.SqlProofs Proofs.SqlStmtProofs Proofs.ReplayProofs.
Import ListNotations.
Open Scope N_scope.

Section Log.
  Variables fmt_f32 fmt_f64 : N -> bytes.
  Variable esc : bool.

  Lemma means_length defs vs xs : row_means fmt_f32 fmt_f64 esc defs vs xs -> length vs = length defs.
  Proof. induction 1; cbn; congruence. Qed.
  Lemma full_row defs vs xs : row_means fmt_f32 fmt_f64 esc defs vs xs ->
    row_means fmt_f32 fmt_f64 esc (firstn (length defs) defs) (firstn (length defs) vs) xs.
  Proof. intros H. rewrite firstn_all. rewrite <- (means_length _ _ _ H), firstn_all. exact H. Qed.

  Section Event.
    Variables (db tbl : bytes) (defs : list column_def) (sch : schema) (d1 d2 : database).
    Hypothesis names : plain_name db /\ plain_name tbl.
    Hypothesis desc : describes defs sch.
    Hypothesis first : Forall (fun t => is_table db tbl t = false) d1.
    Notation db_with rows := (d1 ++ mk_table db tbl sch rows :: d2).

    Lemma inserts_replayed r cs rows rows' : says_inserts fmt_f32 fmt_f64 esc defs r cs -> defs <> [] -> history (sound defs sch) rows cs rows' ->
      exists stmts, rbind (sql_from_insert db tbl r defs) (sql_list fmt_f32 fmt_f64) = Ok stmts /\
        run_script esc (db_with rows) stmts = Some (db_with rows').
    Proof.
      intros [xss P F] Hd H. destruct names as [N1 N2], desc as (E & D & N3).
      destruct (insert_statements fmt_f32 fmt_f64 esc db tbl r defs (length defs) xss N1 N2 N3 P) as (q & stmts & Q1 & _ & Q2 & S).
      { clear - F. induction F; constructor; [apply full_row; assumption|assumption]. }
      exists stmts. rewrite Q1. cbn [rbind]. split; [exact Q2|]. rewrite firstn_all in S.
      exact (replay_inserts esc db tbl sch defs d1 d2 E D first xss stmts rows rows' S Hd H).
    Qed.
    Lemma deletes_replayed r cs rows rows' : says_deletes fmt_f32 fmt_f64 esc defs r cs -> existsb is_key defs = true -> history (sound defs sch) rows cs rows' ->
      exists stmts, rbind (sql_from_delete db tbl r defs) (sql_list fmt_f32 fmt_f64) = Ok stmts /\
        run_script esc (db_with rows) stmts = Some (db_with rows').
    Proof.
      intros [xss P F] Hd H. destruct names as [N1 N2], desc as (E & D & N3).
      destruct (delete_statements fmt_f32 fmt_f64 esc db tbl r defs (length defs) xss N1 N2 N3 P) as (q & stmts & Q1 & _ & Q2 & S).
      { clear - F. induction F; constructor; [apply full_row; assumption|assumption]. }
      exists stmts. rewrite Q1. cbn [rbind]. split; [exact Q2|]. rewrite firstn_all in S.
      exact (replay_deletes esc db tbl sch defs d1 d2 E D first xss stmts rows rows' S Hd H).
    Qed.
    Lemma updates_replayed u cs rows rows' : says_updates fmt_f32 fmt_f64 esc defs u cs -> existsb is_key defs = true -> history (sound defs sch) rows cs rows' ->
      exists stmts, rbind (sql_from_update db tbl u defs) (sql_list fmt_f32 fmt_f64) = Ok stmts /\
        run_script esc (db_with rows) stmts = Some (db_with rows').
    Proof.
      intros [xss P P' F] Hd H. destruct names as [N1 N2], desc as (E & D & N3).
      destruct (update_statements fmt_f32 fmt_f64 esc db tbl u defs (length defs) (length defs) xss N1 N2 N3 P P') as (q & stmts & Q1 & _ & Q2 & S).
      { clear - F. induction F as [|? ? ? ? [F1 F2] F IH]; constructor; [split; apply full_row; assumption|assumption]. }
      exists stmts. rewrite Q1. cbn [rbind]. split; [exact Q2|]. rewrite firstn_all in S.
      exact (replay_updates esc db tbl sch defs d1 d2 E D first xss stmts rows rows' S Hd H).
    Qed.
  End Event.

  Lemma keyed_key defs : existsb keyed defs = true -> existsb is_key defs = true.
  Proof.
    induction defs as [|d defs IH]; [discriminate|]. cbn [existsb]. rewrite !orb_true_iff. intros [H|H]; [left|right; auto].
    unfold keyed, is_key in *. apply andb_true_iff in H as [-> _]. reflexivity.
  Qed.
  Variable passes : table_map -> bool.
  Variable defs_of : bytes -> bytes -> list column_def.
  Lemma rmap_stmts q stmts : rbind q (sql_list fmt_f32 fmt_f64) = Ok stmts -> rmap (map LStmt) (rbind q (sql_list fmt_f32 fmt_f64)) = Ok (map LStmt stmts).
  Proof. intros ->. reflexivity. Qed.
  Lemma log_replayed recent items d d' : logged_history fmt_f32 fmt_f64 esc passes defs_of recent items d d' ->
    exists stmts, printed fmt_f32 fmt_f64 passes defs_of latest recent items = Ok (map LStmt stmts) /\ run_script esc d stmts = Some d'.
  Proof.
    induction 1 as [recent d|recent c id rd pos items tm cs d1 sch rows rows' d2 d' db tbl defs L P S N1 N2 D F H _ (st & IH1 & IH2)
      |recent c id rd pos items d d' L _ (st & IH1 & IH2)|recent it items d d' O _ (st & IH1 & IH2)].
    - exists []. auto.
    - assert (X : exists stmts, row_lines fmt_f32 fmt_f64 defs_of c rd pos tm = Ok (map LStmt stmts) /\
        run_script esc (d1 ++ mk_table db tbl sch rows :: d2) stmts = Some (d1 ++ mk_table db tbl sch rows' :: d2)).
      { unfold row_lines. destruct c; cbn [says] in S; fold db tbl defs in S |- *.
        - destruct S as [Hd (r & -> & S)]. cbn [rbind]. destruct (inserts_replayed db tbl defs sch d1 d2 (conj N1 N2) D F r cs rows rows' S Hd H) as (stmts & Q & R).
          exists stmts. split; [exact (rmap_stmts _ _ Q)|exact R].
        - destruct S as [Hd (u & -> & S)]. cbn [rbind]. rewrite Hd. apply keyed_key in Hd.
          destruct (updates_replayed db tbl defs sch d1 d2 (conj N1 N2) D F u cs rows rows' S Hd H) as (stmts & Q & R).
          exists stmts. split; [exact (rmap_stmts _ _ Q)|exact R].
        - destruct S as [Hd (r & -> & S)]. cbn [rbind]. destruct (deletes_replayed db tbl defs sch d1 d2 (conj N1 N2) D F r cs rows rows' S Hd H) as (stmts & Q & R).
          exists stmts. split; [exact (rmap_stmts _ _ Q)|exact R]. }
      destruct X as (stmts & X1 & X2). exists (stmts ++ st). cbn [printed]. rewrite L, P, X1. cbn [rbind]. rewrite IH1. cbn [rmap]. rewrite map_app. split; [reflexivity|].
      rewrite (script_app _ _ _ _ _ X2). exact IH2.
    - exists st. cbn [printed]. split; [|exact IH2]. destruct (latest recent id) as [tm|]; [rewrite L|]; cbn [rbind]; rewrite IH1; reflexivity.
    - exists st. cbn [printed]. split; [|exact IH2]. destruct it as [| | |]; [|destruct (O change id d0 next_pos eq_refl)| |]; cbn [rbind]; rewrite IH1; reflexivity.
  Qed.
End Log.
