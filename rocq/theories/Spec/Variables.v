(** * Independent specification: variables kept by a server

    From the MySQL 5.7 manual: "User-Defined Variables", "Using System Variables", "SHOW VARIABLES Syntax",
    "Pattern Matching" (LIKE), "Prepared Statements".  A server keeps user variables and system variables,
    reads statements as SQL text and executes prepared ones with the value it is sent. *)
From Coq Require Import Strings.String.
From Coq Require Import List NArith ZArith Arith Bool.
From Verif Require Import Model.Base Model.Auth Model.Conn Model.Col Model.Extract Model.Stmt Model.Session
  Spec.Wire Spec.Packets Spec.Temporal Spec.Commands Spec.Execute Spec.ExtractSpec Spec.ResultSets Spec.SqlSpec Spec.Echo Spec.BothWays Spec.Programs.
Import ListNotations.
Open Scope N_scope.

(** ** Names and patterns *)
(** upper and lower case of ASCII letters are the same in names *)
Definition lower (b : byte) : byte := if (65 <=? b2n b) && (b2n b <=? 90) then n2b (b2n b + 32) else b.
Definition same_name (a b : bytes) : bool := beqb (map lower a) (map lower b).
(** names that need no quotes *)
Definition word (n : bytes) : Prop :=
  match n with b :: _ => is_let b = true /\ forallb (fun c => is_dig c || is_let c) n = true | [] => False end.
(** LIKE: [%] any text, [_] one character, [\c] the character [c] *)
Fixpoint like (p s : bytes) : bool :=
  match p with
  | [] => match s with [] => true | _ => false end
  | c :: p1 =>
      if Byte.eqb c (n2b 37) then
        (fix from (s : bytes) : bool := like p1 s || match s with [] => false | _ :: s1 => from s1 end) s
      else if Byte.eqb c (n2b 95) then match s with _ :: s1 => like p1 s1 | [] => false end
      else if Byte.eqb c backslash then
        match p1, s with
        | d :: p2, b :: s1 => Byte.eqb (lower d) (lower b) && like p2 s1
        | [], [b] => Byte.eqb b backslash
        | _, _ => false
        end
      else match s with b :: s1 => Byte.eqb (lower c) (lower b) && like p1 s1 | [] => false end
  end.

(** ** Statements *)
Inductive statement :=
| SSetUser (name : bytes)                    (* SET @name = ? *)
| SSet (global : bool) (name : bytes)        (* SET @@name = ?, SET @@GLOBAL.name = ? *)
| SSelectUser (name : bytes)                 (* SELECT @name *)
| SAssignUser (name number : bytes)          (* SELECT @name := number *)
| SShow (global : bool) (pattern : bytes).   (* SHOW [GLOBAL] VARIABLES LIKE 'pattern' *)
Definition kw (w : bytes) (s : string) : bool := same_name w (str s).
Definition sym (b : byte) (s : string) : bool := beqb [b] (str s).
Definition statement_of (sql : bytes) : option statement :=
  match lex true sql with
  | Some [TkWord a; TkSym s1; TkWord n; TkSym s2; TkSym s3] =>
      if kw a "SET" && sym s1 "@" && sym s2 "=" && sym s3 "?" then Some (SSetUser n) else None
  | Some [TkWord a; TkSym s1; TkSym s2; TkWord n; TkSym s3; TkSym s4] =>
      if kw a "SET" && sym s1 "@" && sym s2 "@" && sym s3 "=" && sym s4 "?" then Some (SSet false n) else None
  | Some [TkWord a; TkSym s1; TkSym s2; TkWord g; TkSym s3; TkWord n; TkSym s4; TkSym s5] =>
      if kw a "SET" && sym s1 "@" && sym s2 "@" && kw g "GLOBAL" && sym s3 "." && sym s4 "=" && sym s5 "?" then Some (SSet true n) else None
  | Some [TkWord a; TkSym s1; TkWord n] => if kw a "SELECT" && sym s1 "@" then Some (SSelectUser n) else None
  | Some [TkWord a; TkSym s1; TkWord n; TkSym s2; TkSym s3; TkNum d] =>
      if kw a "SELECT" && sym s1 "@" && sym s2 ":" && sym s3 "=" then Some (SAssignUser n d) else None
  | Some [TkWord a; TkWord b; TkWord c; TkText p] =>
      if kw a "SHOW" && kw b "VARIABLES" && kw c "LIKE" then Some (SShow false p) else None
  | Some [TkWord a; TkWord g; TkWord b; TkWord c; TkText p] =>
      if kw a "SHOW" && kw g "GLOBAL" && kw b "VARIABLES" && kw c "LIKE" then Some (SShow true p) else None
  | _ => None
  end.

(** ** The variables *)
(** a system variable: its global value and its value in this session, if it has one *)
Record sysvar := mk_var { v_name : bytes; v_global : option bytes; v_session : option bytes }.
Record store := mk_store { st_user : list (bytes * sql_value); st_vars : list sysvar }.
Definition value_in (global : bool) (v : sysvar) : option bytes := if global then v_global v else v_session v.
Definition known (global : bool) (n : bytes) (vars : list sysvar) : bool :=
  existsb (fun v => same_name (v_name v) n && match value_in global v with Some _ => true | None => false end) vars.
Definition assign (global : bool) (n t : bytes) (vars : list sysvar) : list sysvar :=
  map (fun v => if same_name (v_name v) n
                then match global, value_in global v with
                     | true, Some _ => mk_var (v_name v) (Some t) (v_session v)
                     | false, Some _ => mk_var (v_name v) (v_global v) (Some t)
                     | _, None => v
                     end
                else v) vars.
(** SHOW VARIABLES shows the session's value, if there is none the global one; SHOW GLOBAL VARIABLES the
    global ones *)
Definition shows (global : bool) (v : sysvar) : option bytes :=
  if global then v_global v else match v_session v with Some t => Some t | None => v_global v end.
Definition listed (global : bool) (p : bytes) (vars : list sysvar) : list (bytes * bytes) :=
  flat_map (fun v => match shows global v with Some t => if like p (v_name v) then [(v_name v, t)] else [] | None => [] end) vars.
(** a user variable that was never set is NULL *)
Fixpoint user_value (n : bytes) (l : list (bytes * sql_value)) : sql_value :=
  match l with [] => VNull | (m, v) :: l => if same_name m n then v else user_value n l end.
Definition set_user (n : bytes) (v : sql_value) (st : store) : store := mk_store ((n, v) :: st_user st) (st_vars st).
(** the text of a value; those of floats, dates and times are not fixed here *)
Definition var_text (v : sql_value) (t : option bytes) : Prop :=
  match v with
  | VNull => t = None
  | VInt z => exists s, t = Some s /\ number_shown z s
  | VBytes s => t = Some s
  | _ => True
  end.
Fixpoint decimal_value (d : bytes) (acc : N) : N := match d with [] => acc | b :: d => decimal_value d (acc * 10 + (b2n b - 48)) end.

(** ** The server *)
Record server := mk_srv { s_store : store; s_open : list (N * statement); s_next : N }.
Fixpoint opened (id : N) (l : list (N * statement)) : option statement :=
  match l with [] => None | (i, st) :: l => if i =? id then Some st else opened id l end.
(** what a message says to the server *)
Inductive heard := HRequest (r : request) | HExecute (e : execute).
Definition understood (cap : N) (h : heard) (m : bytes) : Prop :=
  match h with HRequest r => asks cap r m | HExecute e => server_execute (length (ex_params e)) m = Some e end.
(** a text result set *)
Definition text_answer (cap : N) (columns : nat) (rows : list (list (option bytes))) (ms : list bytes) : Prop :=
  exists defs hd rowms last, length defs = columns /\ defs_ok defs /\ heading cap defs hd /\ text_rows_wire defs rows rowms /\
    last_message cap last /\ ms = hd ++ rowms ++ [last].

Section Server.
  Variable cap : N.
  (** the server's rules for the values of a system variable: the text of the value it takes, if it does *)
  Variable admit : bool -> bytes -> sql_value -> option bytes.

  (** what the server answers in a state, and its next state *)
  Inductive reacts (s : server) : heard -> list bytes -> server -> Prop :=
  | rx_prepare sql st defs warnings ms : statement_of sql = Some st ->
      match st with SSetUser _ => True | SSet g n => known g n (st_vars (s_store s)) = true | _ => False end ->
      length defs = 1%nat -> Forall coldef_ok defs -> warnings < 2 ^ 16 -> defs_block cap defs ms ->
      reacts s (HRequest (RqStmtPrepare sql)) (prepare_ok_wire (s_next s) 0 1 warnings :: ms)
        (mk_srv (s_store s) ((s_next s, st) :: s_open s) (s_next s + 1))
  | rx_unknown sql g n m e : statement_of sql = Some (SSet g n) -> known g n (st_vars (s_store s)) = false -> err_message cap m e ->
      reacts s (HRequest (RqStmtPrepare sql)) [m] s
  | rx_set_user id n v m : opened id (s_open s) = Some (SSetUser n) -> ok_message cap 0 m ->
      reacts s (HExecute (mk_ex id 0 1 [v])) [m] (mk_srv (set_user n v (s_store s)) (s_open s) (s_next s))
  | rx_set id g n v t m : opened id (s_open s) = Some (SSet g n) -> admit g n v = Some t -> ok_message cap 0 m ->
      reacts s (HExecute (mk_ex id 0 1 [v])) [m]
        (mk_srv (mk_store (st_user (s_store s)) (assign g n t (st_vars (s_store s)))) (s_open s) (s_next s))
  | rx_refuse id g n v m e : opened id (s_open s) = Some (SSet g n) -> admit g n v = None -> err_message cap m e ->
      reacts s (HExecute (mk_ex id 0 1 [v])) [m] s
  | rx_close id : reacts s (HRequest (RqStmtClose id)) []
      (mk_srv (s_store s) (filter (fun p => negb (fst p =? id)) (s_open s)) (s_next s))
  | rx_select sql n t ms : statement_of sql = Some (SSelectUser n) -> var_text (user_value n (st_user (s_store s))) t ->
      text_answer cap 1 [[t]] ms -> reacts s (HRequest (RqQuery sql)) ms s
  | rx_assign sql n d ms : statement_of sql = Some (SAssignUser n d) -> text_answer cap 1 [[Some d]] ms ->
      reacts s (HRequest (RqQuery sql)) ms
        (mk_srv (set_user n (VInt (Z.of_N (decimal_value d 0))) (s_store s)) (s_open s) (s_next s))
  | rx_show sql g p ms : statement_of sql = Some (SShow g p) ->
      text_answer cap 2 (map (fun '(n, t) => [Some n; Some t]) (listed g p (st_vars (s_store s)))) ms ->
      reacts s (HRequest (RqQuery sql)) ms s.
  (** request after request *)
  Inductive dialogue : server -> list heard -> list bytes -> server -> Prop :=
  | dg_nil s : dialogue s [] [] s
  | dg_cons s h ms s1 hs ms2 s2 : reacts s h ms s1 -> dialogue s1 hs ms2 s2 -> dialogue s (h :: hs) (ms ++ ms2) s2.
End Server.
(** statement numbers are given out once *)
Definition sane (s : server) : Prop := Forall (fun p => fst p < s_next s) (s_open s).

(** ** The application *)
Inductive call :=
| CSetUser (n : bytes) (a : arg) | CGetUser (n : bytes) (q : ask)
| CSet (global : bool) (n : bytes) (a : arg) | CGet (global : bool) (n : bytes) (q : ask).
Inductive outcome (D : Type) := ODone | OGot (v : option (option (answer D))).
Arguments ODone {D}. Arguments OGot {D}.
Definition do_call {D} (checks : bool) (R : readers D) (x : call) : io (outcome D) :=
  match x with
  | CSetUser n a => _ <~ conn_set_user_var checks n (to_col a) ;; iret ODone
  | CGetUser n q => v <~ conn_get_user_var checks (as_text R q) n ;; iret (OGot v)
  | CSet g n a => _ <~ conn_set_var checks n (to_col a) g ;; iret ODone
  | CGet g n q => v <~ conn_get_var checks (as_text R q) n g ;; iret (OGot v)
  end.
(** calls one after the other; an error of one (but a lost connection) does not keep the application from the next *)
Fixpoint run {D} (checks : bool) (R : readers D) (calls : list call) : io (list (res (outcome D))) :=
  match calls with
  | [] => iret []
  | x :: calls => r <~ attempt (do_call checks R x) ;; l <~ run checks R calls ;; iret (r :: l)
  end.
(** what a call tells a server: to set a variable it prepares the statement, executes it with the value and
    closes it, unless the server takes no such statement; to read one it sends one query *)
Definition sql_set_user (n : bytes) : bytes := str "SET @" ++ n ++ str " = ?".
Definition sql_set (g : bool) (n : bytes) : bytes := str (if g then "SET @@GLOBAL." else "SET @@")%string ++ n ++ str " = ?".
Definition sql_select (n : bytes) : bytes := str "SELECT @" ++ n.
Definition sql_show (g : bool) (n : bytes) : bytes := str (if g then "SHOW GLOBAL VARIABLES LIKE '" else "SHOW VARIABLES LIKE '")%string ++ n ++ str "'".
Definition says (s : server) (x : call) : list heard :=
  match x with
  | CSetUser n a => [HRequest (RqStmtPrepare (sql_set_user n)); HExecute (mk_ex (s_next s) 0 1 [arg_value a]); HRequest (RqStmtClose (s_next s))]
  | CGetUser n q => [HRequest (RqQuery (sql_select n))]
  | CSet g n a =>
      if known g n (st_vars (s_store s))
      then [HRequest (RqStmtPrepare (sql_set g n)); HExecute (mk_ex (s_next s) 0 1 [arg_value a]); HRequest (RqStmtClose (s_next s))]
      else [HRequest (RqStmtPrepare (sql_set g n))]
  | CGet g n q => [HRequest (RqQuery (sql_show g n))]
  end.
(** call after call: what is said to the server, what it answers *)
Inductive talk (cap : N) (admit : bool -> bytes -> sql_value -> option bytes) :
  server -> list call -> list heard -> list bytes -> server -> Prop :=
| tk_nil s : talk cap admit s [] [] [] s
| tk_cons s x ms s1 calls hs ms2 s2 : dialogue cap admit s (says s x) ms s1 -> talk cap admit s1 calls hs ms2 s2 ->
    talk cap admit s (x :: calls) (says s x ++ hs) (ms ++ ms2) s2.
(** what a server can hold and send: 64-bit numbers and texts of lengths below 2^64 *)
Definition value_ok (v : sql_value) : Prop :=
  match v with VInt z => (- 2 ^ 64 < z < 2 ^ 64)%Z | VBytes s => N.of_nat (length s) < 2 ^ 64 | _ => True end.
Definition text_ok (t : option bytes) : Prop := match t with Some s => N.of_nat (length s) < 2 ^ 64 | None => True end.
Definition var_ok (v : sysvar) : Prop := N.of_nat (length (v_name v)) < 2 ^ 64 /\ text_ok (v_global v) /\ text_ok (v_session v).
Definition store_ok (st : store) : Prop := Forall (fun p => value_ok (snd p)) (st_user st) /\ Forall var_ok (st_vars st).
(** what the application can ask a text for without trusting another parser *)
Definition plain_ask (q : ask) : Prop := ask_int q <> None \/ In q [QBool; QString; QBytes].
(** the text in quotes is the pattern [p] *)
Definition quoted_as (n p : bytes) : Prop := scan_text true (n ++ str "'") = Some (p, []).
Definition short (s : bytes) : Prop := N.of_nat (length s) < 2 ^ 30.
Definition short_arg (a : arg) : Prop :=
  match a with ADecimal s | AMyBit s | AString s | AVec s => short s | _ => True end.
Definition call_ok (x : call) : Prop :=
  match x with
  | CSetUser n a | CSet _ n a => word n /\ short n /\ arg_ok a /\ short_arg a
  | CGetUser n q => word n /\ short n /\ plain_ask q
  | CGet _ n q => (exists p, quoted_as n p) /\ short n /\ plain_ask q
  end.

(** ** What the calls should do *)
Inductive expects {D} (R : readers D) (admit : bool -> bytes -> sql_value -> option bytes) (st : store) :
  call -> res (outcome D) -> store -> Prop :=
| ex_set_user n a : expects R admit st (CSetUser n a) (Ok ODone) (set_user n (arg_value a) st)
| ex_get_user n q t : var_text (user_value n (st_user st)) t ->
    expects R admit st (CGetUser n q) (rmap (fun v => OGot (Some v)) (as_text R q t)) st
| ex_set g n a t : known g n (st_vars st) = true -> admit g n (arg_value a) = Some t ->
    expects R admit st (CSet g n a) (Ok ODone) (mk_store (st_user st) (assign g n t (st_vars st)))
| ex_refused g n a code mark state msg : known g n (st_vars st) = false \/ admit g n (arg_value a) = None ->
    expects R admit st (CSet g n a) (Err (ESql code mark state msg)) st
| ex_get g n p q : quoted_as n p ->
    expects R admit st (CGet g n q)
      (match listed g p (st_vars st) with
       | [] => Ok (OGot None)
       | (_, t) :: _ => rmap (fun v => OGot (Some v)) (as_text R q (Some t))
       end) st.
Inductive follows {D} (R : readers D) (admit : bool -> bytes -> sql_value -> option bytes) :
  store -> list call -> list (res (outcome D)) -> store -> Prop :=
| fo_nil st : follows R admit st [] [] st
| fo_cons st x r st1 calls rs st2 : expects R admit st x r st1 -> follows R admit st1 calls rs st2 ->
    follows R admit st (x :: calls) (r :: rs) st2.

(** asking for [q] what was set to [a] gives this *)
Definition recalls {D} (a : arg) (q : ask) (v : option (answer D)) : Prop :=
  match arg_value a with
  | VNull => v = None
  | VInt z =>
      (exists bits unsigned, ask_int q = Some (bits, unsigned) /\
         (if unsigned then 0 <= z < 2 ^ Z.of_N bits else - 2 ^ (Z.of_N bits - 1) <= z < 2 ^ (Z.of_N bits - 1))%Z /\ v = Some (GInt z)) \/
      q = QBool /\ (0 <= z < 256)%Z /\ v = Some (GBool (z =? 1)%Z)
  | VBytes s => (q = QBytes \/ q = QString /\ Utf8.utf8_valid s = true) /\ v = Some (GBytes s)
  | _ => False
  end.
(** a call that does not set the user variable [n] / the system variable [n] *)
Definition leaves_user (n : bytes) (x : call) : Prop := match x with CSetUser m _ => same_name m n = false | _ => True end.
Definition leaves_var (g : bool) (n : bytes) (x : call) : Prop :=
  match x with CSet g' m _ => g' <> g \/ same_name m n = false | _ => True end.
(** one variable's name, and no other, matches the name read as a pattern *)
Definition unambiguous (n : bytes) (vars : list sysvar) : Prop :=
  exists u v w, vars = u ++ v :: w /\ forall x, In x (u ++ w) -> like n (v_name x) = false.
