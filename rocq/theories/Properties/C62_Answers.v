(** * C62: each answer belongs to its statement *)
From Coq Require Import Strings.String.
From Coq Require Import List NArith ZArith Lia Arith Bool.
From Verif Require Import Model.Base Model.Conn Model.Auth Model.Cmd Model.Col Model.Stmt Model.Extract Model.Session
  Spec.Wire Spec.Packets Spec.Framing Spec.Session Spec.Commands Spec.Values Spec.Execute Spec.ResultSets Spec.Programs Spec.Scripts
  Proofs.WireLemmas Proofs.SessionProofs Proofs.CommandProofs Proofs.StreamProofs Proofs.ScriptProofs.
Import ListNotations.
Open Scope N_scope.

(** Any number of statements and commands, each answered by one result it can take (also an error): every step
    reports its own result; the server gets exactly the requests, in this order, and nothing is left unread. *)
Theorem C62_paired : forall cap checks steps results outcomes ms, Forall (step_ok checks) steps ->
  all_report steps results outcomes -> results_wire cap results ms ->
  conversation cap (script checks steps) (map (request_of cap) steps) ms (Ok outcomes).
Proof. intros cap checks steps results outcomes ms S R W. apply (script_conv cap checks steps results outcomes R S ms W). Qed.
Print Assumptions C62_paired.
(** In general the n-th step reports the n-th result that arrives, whichever statement it answers; results in
    excess are left for later steps. *)
Theorem C62_in_order : forall cap checks steps results excess outcomes ms c d, Forall (step_ok checks) steps ->
  all_report steps results outcomes -> results_wire cap (results ++ excess) ms ->
  c_cap c = cap -> accepting (c_ws c) -> awaits c ms d ->
  exists c' left, script checks steps c = (Ok outcomes, c') /\ results_wire cap excess left /\ awaits c' left d.
Proof.
  intros cap checks steps results excess outcomes ms c d S R W Hc Ha (w & Hw & Hd).
  destruct (results_app cap results excess ms W) as (m1 & m2 & -> & W1 & W2).
  destruct (messages_wire_app _ _ _ Hw) as (w1 & w2 & V1 & V2 & ->). rewrite <- app_assoc in Hd.
  destruct (script_conv cap checks steps results outcomes R S m1 W1 c (w2 ++ d) Hc Ha ltac:(exists w1; auto)) as (c' & ms & E & _ & _ & D & _).
  exists c', m2. split; [exact E|]. split; [exact W2|]. exists w2. auto.
Qed.
Print Assumptions C62_in_order.
(** Finding: so a statement answered by several results (which the client tells the server it can take) puts
    the connection out of step.  The second result is reported for the next statement, whose own answer is left
    unread. *)
Theorem C62_several_refuted : forall cap checks s1 s2 r1 r2 r3 more o1 o2 ms c d,
  step_ok checks s1 -> step_ok checks s2 -> reports s1 r1 o1 -> reports s2 r2 o2 ->
  results_wire cap ((r1 :: r2 :: more) ++ [r3]) ms ->     (* the answers to [s1] and [s2] *)
  c_cap c = cap -> accepting (c_ws c) -> awaits c ms d ->
  (exists c' left, script checks [s1; s2] c = (Ok [o1; o2], c') /\ results_wire cap (more ++ [r3]) left /\ awaits c' left d) /\
  (forall db, N.testbit (client_caps db) 17 = true).
Proof.
  intros cap checks s1 s2 r1 r2 r3 more o1 o2 ms c d S1 S2 R1 R2 W Hc Ha Aw. split; [|intros [|b db]; reflexivity].
  apply (C62_in_order cap checks [s1; s2] [r1; r2] (more ++ [r3]) [o1; o2] ms c d); auto. repeat constructor; assumption.
Qed.
Print Assumptions C62_several_refuted.
(** Finding: the same if a result set is dropped or closed before its end.  Nothing is skipped, and a row can
    read as success: here whatever the server answers to the second statement, it is reported as executed. *)
Definition a_column : column_def := mk_cd (str "def") [] [] [] (str "c") [] 63 20 TVarString 0 0 [].
Definition seven_columns : list column_def := repeat a_column 7.
Definition empty_cells : list (option bytes) := repeat (Some []) 7.
Theorem C62_dropped_refuted : forall checks sql sql2 hd, sendable checks sql -> sendable checks sql2 ->
  let cap := client_caps [] in heading cap seven_columns hd ->
  defs_ok seven_columns /\ text_rows_wire seven_columns [empty_cells] [text_row empty_cells] /\
  conversation cap (rs <~ query_qry checks sql ;; _ <~ call_rs (rs_close checks) rs ;; query_exec checks sql2)
    [asks cap (RqQuery sql); asks cap (RqQuery sql2)] (hd ++ [text_row empty_cells]) (Ok tt).
Proof.
  intros checks sql sql2 hd S1 S2 cap Hh.
  assert (D : defs_ok seven_columns) by (split; [discriminate|split; [reflexivity|repeat constructor]]).
  split; [exact D|]. split.
  - constructor; [|constructor]. split; [reflexivity|]. split; [repeat constructor|reflexivity].
  - change [asks cap (RqQuery sql); asks cap (RqQuery sql2)] with ([asks cap (RqQuery sql)] ++ [asks cap (RqQuery sql2)]).
    eapply conv_bind; [apply qry_ok; eassumption|]. cbv beta.
    change [asks cap (RqQuery sql2)] with ([] ++ [asks cap (RqQuery sql2)]). rewrite <- (app_nil_l [text_row empty_cells]).
    eapply conv_bind; [apply (conv_ret cap (Ok (tt, rs_new seven_columns None))); reflexivity|].
    apply (exec_ok cap checks sql2 []); [exact S2|constructor|]. apply (okm cap 0 0 0 0 0 [] []); reflexivity.
Qed.
Print Assumptions C62_dropped_refuted.

(** *** Examples *)
Definition ex_cap : N := client_caps [].
Definition ex_rows : list (list (option bytes)) := [[Some (str "a")]; [None]].
Definition ex_select (status : N) : list bytes :=
  (wlenenc 1 :: [coldef_wire a_column]) ++ map text_row ex_rows ++ [ok_wire ex_cap 0xfe 0 0 status 0 [] []].
Lemma ex_select_wire status : status < 2 ^ 15 -> result_wire ex_cap (WithText [a_column] ex_rows) (ex_select status).
Proof.
  intros H. apply rw_text.
  - split; [discriminate|split; [reflexivity|repeat constructor]].
  - exists []. split; [reflexivity|]. reflexivity.
  - repeat constructor.
  - split; [apply okm; try reflexivity; exact H|]. vm_compute. reflexivity.
Qed.
Definition ex_ok (status : N) : bytes := ok_wire ex_cap 0 1 0 status 0 [] [].
Definition ex_err : bytes := err_wire ex_cap 1064 (str "42000") (str "syntax").
(** three statements and a command; the second is refused *)
Example C62_example : let steps := [Query (str "SELECT c FROM t"); Exec (str "DELTE"); Execute (mk_ps 3 [] [] 0) [AI64 (-5)]; Command (conn_init_db true (str "d")) (RqInitDb (str "d"))] in
  let results := [WithText [a_column] ex_rows; Failed (ESql 1064 x23 (str "42000") (str "syntax")); Completed; Completed] in
  let outcomes := [Ok (TextRows ex_rows); Err (ESql 1064 x23 (str "42000") (str "syntax")); Ok Done; Ok Done] in
  let ms := ex_select 2 ++ [ex_err] ++ [ex_ok 2] ++ [ex_ok 2] in
  Forall (step_ok true) steps /\ all_report steps results outcomes /\ results_wire ex_cap results ms /\
  exists c, c_cap c = ex_cap /\ accepting (c_ws c) /\ awaits c ms [] /\ fst (script true steps c) = Ok outcomes.
Proof.
  cbv zeta. split; [|split; [|split]].
  - repeat apply Forall_cons; try apply Forall_nil; cbn [step_ok]; try (right; reflexivity).
    + split; [reflexivity|]. split; [repeat constructor; cbn; lia|right; reflexivity].
    + constructor. right. reflexivity.
  - repeat constructor.
  - rewrite <- (app_nil_r [ex_ok 2]) at 2. apply rsw_cons; [apply ex_select_wire; reflexivity|].
    apply rsw_cons; [apply rw_err; apply errm; reflexivity|]. apply rsw_cons; [apply rw_ok; apply okm; reflexivity|].
    apply rsw_cons; [apply rw_ok; apply okm; reflexivity|constructor].
  - exists (mk_conn (chunks (ex_select 2 ++ [ex_err] ++ [ex_ok 2] ++ [ex_ok 2])) [] [] ex_cap 0 0).
    split; [reflexivity|]. split; [exact I|]. split; [apply chunks_await; repeat constructor|]. vm_compute. reflexivity.
Qed.
(** a procedure is called: a result set, announcing more (flag 8), then the OK of the call; a refused DELETE follows and is
    reported as executed *)
Example C62_example_call : let ms := ex_select 10 ++ [ex_ok 2] ++ [ex_err] in
  results_wire ex_cap ([WithText [a_column] ex_rows; Completed] ++ [Failed (ESql 1064 x23 (str "42000") (str "syntax"))]) ms /\
  exists c, awaits c ms [] /\ c_cap c = ex_cap /\
    fst (script true [Query (str "CALL p()"); Exec (str "DELTE")] c) = Ok [Ok (TextRows ex_rows); Ok Done].
Proof.
  cbv zeta. split.
  - cbn [app]. rewrite <- (app_nil_r [ex_err]) at 1. change (?a ++ ?b :: ?l) with (a ++ [b] ++ l).
    apply rsw_cons; [apply ex_select_wire; reflexivity|]. apply (rsw_cons _ _ _ [ex_ok 2]); [apply rw_ok; apply okm; reflexivity|].
    apply rsw_cons; [apply rw_err; apply errm; reflexivity|constructor].
  - exists (mk_conn (chunks (ex_select 10 ++ [ex_ok 2] ++ [ex_err])) [] [] ex_cap 0 0).
    split; [apply chunks_await; repeat constructor|]. split; [reflexivity|]. vm_compute. reflexivity.
Qed.
