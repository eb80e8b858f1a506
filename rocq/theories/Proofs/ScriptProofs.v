(** * Scripts: each step takes the next result *)
From Coq Require Import Strings.String.
From Coq Require Import List NArith ZArith Lia Arith Bool.
From Verif Require Import Model.Base Model.Conn Model.Cmd Model.Col Model.Stmt Model.Extract Model.Session
  Spec.Framing Spec.Session Spec.Commands Spec.Values Spec.Execute Spec.ResultSets Spec.Programs Spec.Scripts
  Proofs.ConnProofs Proofs.SessionProofs Proofs.CommandProofs Proofs.StreamProofs.
Import ListNotations.
Open Scope N_scope.

Lemma conv_attempt {A} cap (m : io A) q ps r : conversation cap m q ps r -> (exists a, r = Ok a) \/ (exists e, r = Err e /\ e <> EIO) ->
  conversation cap (attempt m) q ps (Ok r).
Proof.
  intros H R c d Hc Ha Hw. destruct (H c d Hc Ha Hw) as (c' & ms & E & K). exists c', ms. split; [|exact K].
  unfold attempt. rewrite E. destruct R as [(a & ->)|(e & -> & N)]; [reflexivity|]. destruct e; reflexivity || congruence.
Qed.
(** the same messages, and then a step of the program's own *)
Lemma conv_then {A B} cap (m : io A) (f : A -> B) q ps r : conversation cap m q ps r ->
  conversation cap (x <~ m ;; iret (f x)) q ps (rmap f r).
Proof.
  intros H c d Hc Ha Hw. destruct (H c d Hc Ha Hw) as (c' & ms & E & K). exists c', ms. split; [|exact K].
  unfold ibind. rewrite E. destruct r; reflexivity.
Qed.
Lemma conv_rows {A} cap (next : rs_io (option A)) rs rows ps :
  (forall c d, c_cap c = cap -> awaits c ps d -> exists rs' c', rs_all next rs c = (Ok rows, rs', c') /\ delivered (c_rd c') = d /\ same_but_read c c') ->
  conversation cap (all_rows next rs) [] ps (Ok rows).
Proof.
  intros H c d Hc Ha Hw. destruct (H c d Hc Hw) as (rs' & c' & E & D & (S1 & S2 & S3 & S4)). exists c', []. unfold all_rows, on_rs. rewrite E.
  split; [reflexivity|]. split; [exists []; split; [constructor|rewrite S2, app_nil_r; reflexivity]|]. split; [constructor|]. rewrite S1, S3, S4. auto.
Qed.
Lemma conv_open {A B} cap (open : io result_set) (next : rs_io (option A)) (f : list A -> B) q hd ps rs rows :
  conversation cap open [q] hd (Ok rs) -> conversation cap (all_rows next rs) [] ps (Ok rows) ->
  conversation cap (rs <~ open ;; rows <~ all_rows next rs ;; iret (f rows)) [q] (hd ++ ps) (Ok (f rows)).
Proof.
  intros H K. change [q] with ([q] ++ []). eapply conv_bind; [exact H|]. apply (conv_then cap (all_rows next rs) f [] ps (Ok rows) K).
Qed.
Lemma take_conv cap checks s r o ms : step_ok checks s -> reports s r o -> result_wire cap r ms ->
  conversation cap (take checks s) [request_of cap s] ms o.
Proof.
  intros S R W. destruct R; cbn [take request_of step_ok] in *.
  - inversion W as [|m e' He| |]; subst. destruct s as [sql|sql|ps args|ps args|m' rq]; cbn [take request_of step_ok] in *.
    + apply (conv_then cap (query_exec checks sql) (fun _ => Done) _ _ (Err e)). apply (exec_err cap checks sql []); auto.
    + apply conv_stop. apply qry_err; auto.
    + destruct S as (S1 & S2 & S3). apply (conv_then cap _ (fun _ => Done) _ _ (Err e)). apply (stmt_exec_err cap checks ps args []); auto.
    + destruct S as (S1 & S2 & S3). apply conv_stop. apply stmt_qry_err; auto.
    + apply (conv_then cap _ (fun _ => Done) _ _ (Err e)). eapply simple_err; eassumption.
  - inversion W as [m Hm| | |]; subst. apply (conv_then cap _ (fun _ => Done) _ _ (Ok tt)). apply (exec_ok cap checks sql []); auto.
  - inversion W as [m Hm| | |]; subst. destruct S as (S1 & S2 & S3). apply (conv_then cap _ (fun _ => Done) _ _ (Ok tt)). apply (stmt_exec_ok cap checks ps args []); auto.
  - inversion W as [m' Hm| | |]; subst. apply (conv_then cap _ (fun _ => Done) _ _ (Ok tt)). eapply simple_ok; eassumption.
  - inversion W as [m Hm| | |]; subst. destruct (qry_empty cap checks sql m S Hm) as (rs & H & D). rewrite <- (app_nil_r [m]).
    eapply conv_open; [exact H|]. apply conv_rows. intros c d _ Aw. apply awaits_nil in Aw. subst d. destruct (D c) as (_ & K & _). exact K.
  - inversion W as [m Hm| | |]; subst. destruct S as (S1 & S2 & S3). destruct (stmt_qry_empty cap checks ps args m S1 S2 S3 Hm) as (rs & H & D). rewrite <- (app_nil_r [m]).
    eapply conv_open; [exact H|]. apply conv_rows. intros c d _ Aw. apply awaits_nil in Aw. subst d. destruct (D c) as (_ & K & _). exact K.
  - inversion W as [| |d0 hd r0 ms' last Hd Hh Hr Hl|]; subst. eapply conv_open; [apply qry_ok; eassumption|]. apply conv_rows. intros c d Hc Aw. subst cap.
    destruct (text_delivers c defs None rows ms' last d Hd Hr Hl Aw) as ((_ & K & _) & _). exact K.
  - inversion W as [| | |d0 hd r0 ms' last Hd Hh Hr Hl]; subst. destruct S as (S1 & S2 & S3). eapply conv_open; [apply stmt_qry_ok; eassumption|]. apply conv_rows. intros c d Hc Aw. subst cap.
    destruct (binary_delivers c defs (Some (ps_stmt_id ps)) rows ms' last d Hd Hr Hl Aw) as ((_ & K & _) & _). exact K.
Qed.
Lemma report_kind cap s r o ms : reports s r o -> result_wire cap r ms -> (exists a, o = Ok a) \/ (exists e, o = Err e /\ e <> EIO).
Proof.
  intros R W. destruct R; eauto. right. exists e. split; [reflexivity|]. inversion W as [|m e' He| |]; subst. destruct He. discriminate.
Qed.
Lemma script_conv cap checks : forall ss rs os, all_report ss rs os -> Forall (step_ok checks) ss -> forall ms, results_wire cap rs ms ->
  conversation cap (script checks ss) (map (request_of cap) ss) ms (Ok os).
Proof.
  induction 1 as [|s r o ss rs os R _ IH]; intros S ms W.
  - inversion W; subst. apply conv_ret. reflexivity.
  - inversion W as [|r' rs' m1 m2 W1 W2]; subst. inversion S as [|s' ss' S1 S2]; subst. cbn [script map].
    change (request_of cap s :: map (request_of cap) ss) with ([request_of cap s] ++ map (request_of cap) ss). eapply conv_bind.
    + apply conv_attempt; [eapply take_conv; eassumption|eapply report_kind; eassumption].
    + apply (conv_then cap (script checks ss) (cons o) _ _ (Ok os)). apply IH; assumption.
Qed.
Lemma results_app cap r1 : forall r2 ms, results_wire cap (r1 ++ r2) ms -> exists m1 m2, ms = m1 ++ m2 /\ results_wire cap r1 m1 /\ results_wire cap r2 m2.
Proof.
  induction r1 as [|r r1 IH]; intros r2 ms W.
  - exists [], ms. split; [reflexivity|]. split; [constructor|exact W].
  - inversion W as [|r' rs' m1 m2 W1 W2]; subst. destruct (IH _ _ W2) as (a & b & -> & Wa & Wb). exists (m1 ++ a), b.
    split; [apply app_assoc|]. split; [constructor; assumption|exact Wb].
Qed.
