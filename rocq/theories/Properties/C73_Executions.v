(** C73: however often and in whatever order prepared statements are executed, and whether or not the types of the
    arguments are sent each time, the server reads what the application asked for *)
From Coq Require Import List NArith ZArith Arith Bool Lia.
From Verif Require Import Model.Base Model.Bitmap Model.Cmd Model.Time Model.Col Model.Stmt Model.Execute
  Spec.Packets Spec.Commands Spec.Values Spec.Execute Spec.ExecuteMany Proofs.ExecuteManyProofs.
Import ListNotations.
Open Scope N_scope.

(** the statement, the flags, one iteration and the arguments; the fields for the iterations and the NULLs have no say *)
Theorem C73_executions : forall params xs, by_the_rules params xs ->
  server_reads (fresh_server params) (map x_message xs) = map (fun x => Some (x_meaning x)) xs.
Proof. exact many. Qed.
Print Assumptions C73_executions.
(** what the client itself sends for an execution is one that sends its types, so those need no rule about types *)
Definition own (id : N) (args : list arg) : bytes := write_com_stmt_execute (cse_single id (map to_col args)).
Theorem C73_own : forall params calls,
  (forall id args, In (id, args) calls -> id < 2 ^ 32 /\ params id = Some (length args) /\ Forall arg_ok args) ->
  server_reads (fresh_server params) (map (fun c => own (fst c) (snd c)) calls) =
  map (fun c => Some (mk_ex (fst c) 0 1 (map arg_value (snd c)))) calls.
Proof.
  intros params calls H.
  pose (x_of := fun c : N * list arg => mk_x (fst c) 0 1 (bm_from_iter (map sv_is_null (map to_col (snd c))) 0) true (snd c)).
  rewrite (map_ext _ (fun c => x_message (x_of c))) by reflexivity. rewrite <- (map_map x_of x_message). rewrite many; [rewrite map_map; reflexivity|].
  intros before x after E. assert (I : In x (map x_of calls)) by (rewrite E; apply in_or_app; right; left; reflexivity).
  apply in_map_iff in I. destruct I as ([id args] & <- & I). destruct (H _ _ I) as (H1 & H2 & H3).
  repeat split; cbn; auto.
Qed.
Print Assumptions C73_own.
Theorem C73_own_bytes : forall id args, own id args = write_stmt_execute id (map to_col args).
Proof. intros. apply single_same. Qed.
Print Assumptions C73_own_bytes.

(** finding: nothing compares the arguments with the types sent last: an argument of another type is read as another value *)
Theorem C73_types_refuted : exists params xs e,
  (forall x, In x xs -> params (x_id x) = Some (length (x_args x)) /\ Forall arg_ok (x_args x)) /\
  (forall x xs', xs = x :: xs' -> x_bind x = true) /\
  nth_error (server_reads (fresh_server params) (map x_message xs)) 1 = Some (Some e) /\
  option_map x_meaning (nth_error xs 1) <> Some e.
Proof.
  exists (fun id => if id =? 7 then Some 1%nat else None), [mk_x 7 0 1 [] true [AI32 5]; mk_x 7 0 1 [] false [AU32 4294967295]].
  exists (mk_ex 7 0 1 [VInt (-1)]). repeat split.
  - cbn in H. destruct H as [<-|[<-|[]]]; reflexivity.
  - cbn in H. destruct H as [<-|[<-|[]]]; repeat constructor; cbn; lia.
  - intros x xs' [= <- _]. reflexivity.
  - intros H. vm_compute in H. discriminate H.
Qed.
Print Assumptions C73_types_refuted.
(** finding: a NULL is sent with the type NULL, so that a value cannot follow it without its type *)
Theorem C73_null_refuted : forall params id iter null iter' null' a, params id = Some 1%nat -> id < 2 ^ 32 -> a <> ANull ->
  nth_error (server_reads (fresh_server params)
    (map x_message [mk_x id 0 iter null true [ANull]; mk_x id 0 iter' null' false [a]])) 1 = Some None.
Proof. exact null_first. Qed.
Print Assumptions C73_null_refuted.

(** ** A case *)
Definition ex_params (id : N) : option nat := if id =? 7 then Some 2%nat else if id =? 8 then Some 0%nat else None.
Definition ex_calls : list execution :=
  [mk_x 7 0 1 [] true [AI32 5; AString [x68; x69]]; mk_x 8 1 9 [xff] false []; mk_x 7 0 3 [xff] false [AI32 (-6); ANull];
   mk_x 7 0 1 [] true [AU32 4294967295; ANull]; mk_x 7 0 1 [] false [AU32 1; ANull]].
Example C73_ex : by_the_rules ex_params ex_calls.
Proof.
  intros before x after E. unfold ex_calls in E.
  destruct before as [|b0 before]; cbn [app] in E; [injection E as <- _|injection E as <- E; destruct before as [|b1 before]; cbn [app] in E;
   [injection E as <- _|injection E as <- E; destruct before as [|b2 before]; cbn [app] in E;
   [injection E as <- _|injection E as <- E; destruct before as [|b3 before]; cbn [app] in E;
   [injection E as <- _|injection E as <- E; destruct before as [|b4 before]; cbn [app] in E;
   [injection E as <- _|injection E as <- E; destruct before; discriminate E]]]]].
  all: split; [reflexivity|split; [reflexivity|split; [reflexivity|split; [cbn [x_args]; repeat first [apply Forall_nil|apply Forall_cons]; cbn; unfold in_int, str_ok; cbn; try lia; try exact I|]]]].
  - left; reflexivity.
  - right; left; reflexivity.
  - right; right. exists [arg_type (AI32 5); arg_type (AString [x68; x69])]. split.
    + exists [], (mk_x 7 0 1 [] true [AI32 5; AString [x68; x69]]), [mk_x 8 1 9 [xff] false []].
      repeat split; [discriminate|]. intros y [<-|[]] _. reflexivity.
    + constructor; [right; reflexivity|constructor; [left; reflexivity|constructor]].
  - left; reflexivity.
  - right; right. exists [arg_type (AU32 4294967295); arg_type ANull]. split.
    + eexists [_; _; _], (mk_x 7 0 1 [] true [AU32 4294967295; ANull]), []. repeat split; [discriminate|]. intros y [].
    + constructor; [right; reflexivity|constructor; [left; reflexivity|constructor]].
Qed.
Example C73_ex_read : server_reads (fresh_server ex_params) (map x_message ex_calls) =
  [Some (mk_ex 7 0 1 [VInt 5; VBytes [x68; x69]]); Some (mk_ex 8 1 1 []); Some (mk_ex 7 0 1 [VInt (-6); VNull]);
   Some (mk_ex 7 0 1 [VInt 4294967295; VNull]); Some (mk_ex 7 0 1 [VInt 1; VNull])].
Proof. rewrite (C73_executions _ _ C73_ex). reflexivity. Qed.
