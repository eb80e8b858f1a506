(** * Independent specification: a small SQL engine

    What a server does with a script of INSERT, DELETE and UPDATE statements.  The statements are read with the
    lexer of Spec/SqlSpec.v, parsed and executed.  Simplifications: a column is of one of four kinds; two values
    of a kind are equal if they are the same (no collations, no rounding); columns that are not given are NULL;
    the engine checks no constraints. *)
From Coq Require Import Strings.String.
From Coq Require Import List NArith ZArith Arith Bool.
From Verif Require Import Model.Base Model.Auth Spec.SqlSpec.
Import ListNotations.
Open Scope N_scope.

(** ** Parsing *)
Definition pairs := list (bytes * list token).
Inductive statement : Type :=
| SInsert (db tbl : bytes) (cols : list bytes) (vals : list (list token))
| SDelete (db tbl : bytes) (conds : pairs)
| SUpdate (db tbl : bytes) (sets conds : pairs).

Definition sym (n : N) (t : token) : bool := match t with TkSym b => b2n b =? n | _ => false end.
Definition word (w : string) (t : token) : bool := match t with TkWord s => beqb s (str w) | _ => false end.
(** a literal: a value, or a number behind a minus *)
Definition p_literal (ts : list token) : option (list token * list token) :=
  match ts with
  | t :: r =>
      match t with
      | TkText _ | TkHex _ | TkNum _ => Some ([t], r)
      | _ =>
          if word "null" t || word "NULL" t then Some ([t], r)
          else if sym 45 t then match r with TkNum s :: r => Some ([t; TkNum s], r) | _ => None end
          else None
      end
  | [] => None
  end.
(** [item], [item], ... ; [more] is what stands between *)
Fixpoint p_list {A} (fuel : nat) (item : list token -> option (A * list token)) (more : token -> bool) (ts : list token)
  : option (list A * list token) :=
  match fuel with
  | O => None
  | S fuel =>
      match item ts with
      | Some (a, t :: r) =>
          if more t then match p_list fuel item more r with Some (l, r) => Some (a :: l, r) | None => None end
          else Some ([a], t :: r)
      | Some (a, []) => Some ([a], [])
      | None => None
      end
  end.
Definition p_name (ts : list token) : option (bytes * list token) :=
  match ts with TkName n :: r => Some (n, r) | _ => None end.
(** `name` = literal *)
Definition p_pair (ts : list token) : option ((bytes * list token) * list token) :=
  match ts with
  | TkName n :: e :: r => if sym 61 e then match p_literal r with Some (l, r) => Some ((n, l), r) | None => None end else None
  | _ => None
  end.
(** `db`.`table` *)
Definition p_table (ts : list token) : option (bytes * bytes * list token) :=
  match ts with TkName db :: d :: TkName tbl :: r => if sym 46 d then Some (db, tbl, r) else None | _ => None end.
Definition p_insert (ts : list token) : option statement :=
  match p_table ts with
  | Some (db, tbl, p :: r) =>
      if sym 40 p then
        match p_list (length r) p_name (sym 44) r with
        | Some (cols, q :: v :: p2 :: r) =>
            if sym 41 q && word "VALUES" v && sym 40 p2 then
              match p_list (length r) p_literal (sym 44) r with
              | Some (vals, [q2]) => if sym 41 q2 then Some (SInsert db tbl cols vals) else None
              | _ => None
              end
            else None
        | _ => None
        end
      else None
  | _ => None
  end.
Definition p_delete (ts : list token) : option statement :=
  match p_table ts with
  | Some (db, tbl, w :: r) =>
      if word "WHERE" w then
        match p_list (length r) p_pair (word "AND") r with
        | Some (conds, []) => Some (SDelete db tbl conds)
        | _ => None
        end
      else None
  | _ => None
  end.
Definition p_update (ts : list token) : option statement :=
  match p_table ts with
  | Some (db, tbl, s :: r) =>
      if word "SET" s then
        match p_list (length r) p_pair (sym 44) r with
        | Some (sets, w :: r) =>
            if word "WHERE" w then
              match p_list (length r) p_pair (word "AND") r with
              | Some (conds, []) => Some (SUpdate db tbl sets conds)
              | _ => None
              end
            else None
        | _ => None
        end
      else None
  | _ => None
  end.
Definition parse_statement (ts : list token) : option statement :=
  match ts with
  | t :: r =>
      if word "UPDATE" t then p_update r
      else match r with
           | t2 :: r =>
               if word "INSERT" t && word "INTO" t2 then p_insert r
               else if word "DELETE" t && word "FROM" t2 then p_delete r
               else None
           | [] => None
           end
  | [] => None
  end.

(** ** Executing *)
Inductive kind := KInt | KNumber | KText | KBinary.
Definition schema := list (bytes * kind).
Definition row := list sql_value.
Record table := mk_table { tb_db : bytes; tb_name : bytes; tb_schema : schema; tb_rows : list row }.
Definition database := list table.

(** the number written with decimal digits *)
Fixpoint decimal (acc : N) (s : bytes) : option N :=
  match s with
  | [] => Some acc
  | b :: s => if is_dig b then decimal (10 * acc + (b2n b - 48)) s else None
  end.
(** what a literal means for a column of the kind *)
Definition evaluate (k : kind) (lit : list token) : option sql_value :=
  match lit with
  | [TkWord _] => Some VNull
  | [TkNum s] =>
      match k with KInt => option_map (fun n => VInt (Z.of_N n)) (decimal 0 s) | KNumber => Some (VNumber false s) | _ => None end
  | [TkSym _; TkNum s] =>
      match k with KInt => option_map (fun n => VInt (- Z.of_N n)) (decimal 0 s) | KNumber => Some (VNumber true s) | _ => None end
  | [TkText s] => match k with KText => Some (VText s) | _ => None end
  | [TkHex s] => match k with KBinary => Some (VBinary s) | _ => None end
  | _ => None
  end.
(** x = y; NULL equals nothing *)
Definition equal (x y : sql_value) : bool :=
  match x, y with
  | VInt a, VInt b => (a =? b)%Z
  | VNumber n a, VNumber m b => Bool.eqb n m && beqb a b
  | VText a, VText b | VBinary a, VBinary b => beqb a b
  | _, _ => false
  end.
Fixpoint assoc {A} (name : bytes) (l : list (bytes * A)) : option A :=
  match l with [] => None | (n, a) :: l => if beqb n name then Some a else assoc name l end.
(** all or none *)
Fixpoint all {A} (l : list (option A)) : option (list A) :=
  match l with
  | [] => Some []
  | Some a :: l => option_map (cons a) (all l)
  | None :: _ => None
  end.
(** literals for columns: all the columns must exist *)
Definition resolve (sch : schema) (l : pairs) : option (list (bytes * sql_value)) :=
  all (map (fun p => match assoc (fst p) sch with
                     | Some k => option_map (pair (fst p)) (evaluate k (snd p))
                     | None => None
                     end) l).
(** the row meets all the conditions *)
Definition meets (sch : schema) (conds : list (bytes * sql_value)) (r : row) : bool :=
  forallb (fun p => match assoc (fst p) (combine (map fst sch) r) with Some x => equal x (snd p) | None => false end) conds.
(** the row with columns replaced *)
Definition assign (sch : schema) (sets : list (bytes * sql_value)) (r : row) : row :=
  map (fun p => match assoc (fst p) sets with Some x => x | None => snd p end) (combine (map fst sch) r).

Definition change_rows (sch : schema) (s : statement) (rows : list row) : option (list row) :=
  match s with
  | SInsert _ _ cols vals =>
      if (length cols =? length vals)%nat then
        match resolve sch (combine cols vals) with
        | Some l => Some (rows ++ [map (fun p => match assoc (fst p) l with Some x => x | None => VNull end) sch])
        | None => None
        end
      else None
  | SDelete _ _ conds =>
      match resolve sch conds with Some c => Some (filter (fun r => negb (meets sch c r)) rows) | None => None end
  | SUpdate _ _ sets conds =>
      match resolve sch sets, resolve sch conds with
      | Some l, Some c => Some (map (fun r => if meets sch c r then assign sch l r else r) rows)
      | _, _ => None
      end
  end.
Definition target (s : statement) : bytes * bytes :=
  match s with SInsert db tbl _ _ | SDelete db tbl _ | SUpdate db tbl _ _ => (db, tbl) end.
Definition is_table (db tbl : bytes) (t : table) : bool := beqb (tb_db t) db && beqb (tb_name t) tbl.
Fixpoint execute (d : database) (s : statement) : option database :=
  match d with
  | [] => None
  | t :: d =>
      if is_table (fst (target s)) (snd (target s)) t
      then option_map (fun rows => mk_table (tb_db t) (tb_name t) (tb_schema t) rows :: d) (change_rows (tb_schema t) s (tb_rows t))
      else option_map (cons t) (execute d s)
  end.
(** a script: every statement is lexed, parsed and executed *)
Definition run_statement (esc : bool) (d : database) (s : bytes) : option database :=
  match lex esc s with
  | Some ts => match parse_statement ts with Some st => execute d st | None => None end
  | None => None
  end.
Fixpoint run_script (esc : bool) (d : database) (l : list bytes) : option database :=
  match l with
  | [] => Some d
  | s :: l => match run_statement esc d s with Some d => run_script esc d l | None => None end
  end.

(** ** What happened on the server that wrote the log *)
Inductive change : Type :=
| CInsert (r : row) | CDelete (r : row) | CUpdate (r r' : row).
(** one row is added, taken away or replaced *)
Inductive changed : list row -> change -> list row -> Prop :=
| ch_insert rows r : changed rows (CInsert r) (rows ++ [r])
| ch_delete a r b : changed (a ++ r :: b) (CDelete r) (a ++ b)
| ch_update a r r' b : changed (a ++ r :: b) (CUpdate r r') (a ++ r' :: b).
(** the changes of a table, one after the other; the rows always satisfy [inv] *)
Inductive history (inv : list row -> Prop) : list row -> list change -> list row -> Prop :=
| hi_nil rows : inv rows -> history inv rows [] rows
| hi_cons rows c rows' cs rows'' : inv rows -> changed rows c rows' -> history inv rows' cs rows'' -> history inv rows (c :: cs) rows''.

(** the values of the key columns *)
Definition key_of (keys : list bool) (r : row) : row := map snd (filter fst (combine keys r)).
(** the key identifies the rows; no key value is NULL *)
Definition key_holds (keys : list bool) (rows : list row) : Prop :=
  NoDup (map (key_of keys) rows) /\ Forall (fun r => ~ In VNull (key_of keys r)) rows.
(** a value of the kind, or NULL *)
Definition of_kind (k : kind) (x : sql_value) : Prop :=
  match x, k with
  | VNull, _ | VInt _, KInt | VNumber _ _, KNumber | VText _, KText | VBinary _, KBinary => True
  | _, _ => False
  end.
Definition typed (sch : schema) (r : row) : Prop := Forall2 (fun p x => of_kind (snd p) x) sch r.
