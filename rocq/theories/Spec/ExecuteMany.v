(** * Independent specification: how a server reads the executions of its prepared statements

    Written from the MySQL protocol documentation of COM_STMT_EXECUTE: an execution may leave out the types of
    its parameters; the server then uses those of the last execution of the same statement that sent them. *)
From Coq Require Import List NArith ZArith Arith Bool.
From Verif Require Import Model.Base Model.Cmd Model.Col Model.Stmt Model.Execute Spec.Wire Spec.BitmapSpec Spec.Packets Spec.Commands Spec.Values Spec.Execute.
Import ListNotations.
Open Scope N_scope.

(** the code of a parameter's type, and whether it is unsigned *)
Definition types := list (N * bool).
(** what a server knows: how many parameters each prepared statement has, and the types it was last told *)
Record prepared := mk_prep { p_params : N -> option nat; p_types : N -> option types }.
Definition remember (s : prepared) (id : N) (t : types) : prepared :=
  mk_prep (p_params s) (fun i => if i =? id then Some t else p_types s i).

(** one execution, and what the server knows afterwards *)
Definition dexecution (s : prepared) : dec (execute * prepared) :=
  cmd <-- dle 1 ;;
  if cmd =? 0x17 then
    id <-- dle 4 ;; flags <-- dle 1 ;; iter <-- dle 4 ;;
    match p_params s id with
    | None => dfail
    | Some O => _ <-- dend ;; dret (mk_ex id flags iter [], s)
    | Some n =>
        bm <-- dbytes ((n + 7) / 8) ;;
        bound <-- dle 1 ;;
        if bound =? 1 then
          ts <-- dlist n (c <-- dle 1 ;; f <-- dle 1 ;; dret (c, 0x80 <=? f)) ;;
          vs <-- dvalues 0 ts bm ;;
          _ <-- dend ;;
          dret (mk_ex id flags iter vs, remember s id ts)
        else
          match p_types s id with
          | None => dfail
          | Some ts => vs <-- dvalues 0 ts bm ;; _ <-- dend ;; dret (mk_ex id flags iter vs, s)
          end
    end
  else dfail.
(** a sequence of executions; a message that cannot be read is refused and changes nothing *)
Fixpoint server_reads (s : prepared) (messages : list bytes) : list (option execute) :=
  match messages with
  | [] => []
  | m :: messages =>
      match dexecution s m with
      | Some ((e, s'), _) => Some e :: server_reads s' messages
      | None => None :: server_reads s messages
      end
  end.
(** a server that has prepared statements and not executed any *)
Definition fresh_server (params : N -> option nat) : prepared := mk_prep params (fun _ => None).

(** ** What the application does *)
(** an execution of statement [x_id]; [x_iter] and [x_null] are what is put into the fields of these names *)
Record execution := mk_x { x_id : N; x_flags : N; x_iter : N; x_null : bytes; x_bind : bool; x_args : list arg }.
Definition x_message (x : execution) : bytes :=
  write_com_stmt_execute (mk_cse CmdStmtExecute (x_id x) (x_flags x) (x_iter x) (x_null x) (x_bind x) (map to_col (x_args x))).
Definition x_meaning (x : execution) : execute := mk_ex (x_id x) (x_flags x) 1 (map arg_value (x_args x)).
(** the type with which an argument is sent *)
Definition arg_type (a : arg) : N * bool := (column_type_code (sv_type (to_col a)), sv_unsigned (to_col a)).
(** an argument can be sent without its type: it is NULL, or the type is the one sent before *)
Definition keeps (t : N * bool) (a : arg) : Prop := a = ANull \/ t = arg_type a.
(** the last execution of [id] that sent types, and those types *)
Definition last_sent (before : list execution) (id : N) (ts : types) : Prop :=
  exists b x later, before = b ++ x :: later /\ x_id x = id /\ x_bind x = true /\ x_args x <> [] /\ ts = map arg_type (x_args x) /\
    forall y, In y later -> x_id y = id -> x_bind y = false.
(** the executions keep to the rules: the statements exist and get as many arguments as they have parameters, and
    types are sent unless the ones sent last still fit *)
Definition by_the_rules (params : N -> option nat) (xs : list execution) : Prop :=
  forall before x after, xs = before ++ x :: after ->
    x_id x < 2 ^ 32 /\ x_flags x < 2 ^ 8 /\ params (x_id x) = Some (length (x_args x)) /\ Forall arg_ok (x_args x) /\
    (x_bind x = true \/ x_args x = [] \/ exists ts, last_sent before (x_id x) ts /\ Forall2 keeps ts (x_args x)).
