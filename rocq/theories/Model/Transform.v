(** * Model of mybin-core/src/binlog/transform/{mod,sql,json}.rs *)
From Coq Require Import Strings.String.
From Verif Require Import Model.Base Model.BytesParser Model.Utf8 Model.Bitmap Model.Flags Model.Auth Model.Cmd
  Model.Fmt Model.Time Model.Decimal Model.Col Model.Row Model.Rows Model.Stmt.
Open Scope N_scope.

(** a list of computations, in order; the first failure is the result *)
Fixpoint sequence {A} (l : list (res A)) : res (list A) :=
  match l with
  | [] => Ok []
  | r :: l => rbind r (fun a => rbind (sequence l) (fun l => Ok (a :: l)))
  end.

(** ** transform/mod.rs *)
(** col.rs:1041-1042 *)
Definition CF_PRIMARY_KEY : N := 0x0002.
Definition CF_UNIQUE_KEY : N := 0x0004.
(** mod.rs:48-54 *)
Record col_def := mk_col_def { f_name : bytes; f_type : column_type; f_unsigned : bool; f_key : bool }.
(** mod.rs:38-44 *)
Definition col_def_of (d : column_def) : col_def :=
  mk_col_def (cd_name d) (cd_type d) (contains (cd_flags d) CF_UNSIGNED)
    (contains (cd_flags d) CF_PRIMARY_KEY || contains (cd_flags d) CF_UNIQUE_KEY).
(** mod.rs:34-46 *)
Definition filter_col_defs (present_bitmap : bytes) (defs : list column_def) : res (list col_def) :=
  rmap (fun bits => map (fun p => col_def_of (snd p)) (filter fst (combine bits defs))) (bm_to_iter present_bitmap 0).

(** ** transform/sql.rs *)
(** sql.rs:41-46 *)
Record prepared_sql := mk_prepared {
  q_dbname : bytes; q_fragments : list bytes; q_params : list (list stmt_value) }.
(** sql.rs:18-23, 25-33 and 35-39 *)
Record plain_sql := mk_plain { pl_dbname : bytes; pl_sql : bytes; pl_ddl : bool }.
Definition plain_sql_list (p : plain_sql) : list bytes := [pl_sql p].
(** sql.rs:60-62 *)
Definition sql_stmt (q : prepared_sql) : bytes := concat (q_fragments q).

(** [s.last_mut().unwrap().push_str(x)] on a non-empty list *)
Fixpoint push_last (l : list bytes) (x : bytes) : list bytes :=
  match l with
  | [] => [] (* unreachable *)
  | [s] => [s ++ x]
  | s :: l => s :: push_last l x
  end.
Definition quoted_name (name : bytes) : bytes := str "`" ++ name ++ str "`".
(** sql.rs:221-243; [idx > 0] is "not the first" *)
Definition insert_sql_fragments (db tbl : bytes) (defs : list col_def) : list bytes :=
  let names := flat_map (fun p => (if (0 <? fst p)%nat then str "," else []) ++ quoted_name (f_name (snd p)))
                        (combine (seq 0 (length defs)) defs) in
  let s := str "INSERT INTO `" ++ db ++ str "`.`" ++ tbl ++ str "` (" ++ names ++ str ") VALUES (" in
  [s] ++ flat_map (fun idx => (if (0 <? idx)%nat then [str ","] else []) ++ [str "?"]) (seq 0 (length defs)) ++ [str ")"].
(** sql.rs:165-179 and 203-217: the key columns *)
Fixpoint where_fragments (defs : list col_def) (idx : nat) (frs : list bytes) : list bytes :=
  match defs with
  | [] => frs
  | cf :: defs =>
      if f_key cf then
        where_fragments defs (S idx)
          ((if (0 <? idx)%nat then frs ++ [str " AND `" ++ f_name cf ++ str "` = "]
            else push_last frs (str "`" ++ f_name cf ++ str "` = ")) ++ [str "?"])
      else where_fragments defs idx frs
  end.
(** sql.rs:162-181 *)
Definition delete_sql_fragments (db tbl : bytes) (defs : list col_def) : list bytes :=
  where_fragments defs 0 [str "DELETE FROM `" ++ db ++ str "`.`" ++ tbl ++ str "` WHERE "].
(** sql.rs:191-201 *)
Fixpoint set_fragments (defs : list col_def) (idx : nat) (frs : list bytes) : list bytes :=
  match defs with
  | [] => frs
  | cf :: defs =>
      set_fragments defs (S idx)
        ((if (0 <? idx)%nat then frs ++ [str ", `" ++ f_name cf ++ str "` = "]
          else push_last frs (str "`" ++ f_name cf ++ str "` = ")) ++ [str "?"])
  end.
(** sql.rs:183-219 *)
Definition update_sql_fragments (db tbl : bytes) (before after : list col_def) : list bytes :=
  where_fragments before 0
    (set_fragments after 0 [str "UPDATE `" ++ db ++ str "`.`" ++ tbl ++ str "` SET "] ++ [str " WHERE "]).

(** sql.rs:76-80 etc.: definitions zipped with the values of a row *)
Definition params_of (defs : list col_def) (row : list binlog_value) : res (list stmt_value) :=
  sequence (map (fun p => sv_of_binlog (snd p) (f_unsigned (fst p))) (combine defs row)).
(** sql.rs:96-101 and 123-127 *)
Definition key_params_of (defs : list col_def) (row : list binlog_value) : res (list stmt_value) :=
  sequence (map (fun p => sv_of_binlog (snd p) (f_unsigned (fst p)))
                (filter (fun p => f_key (fst p)) (combine defs row))).
(** sql.rs:66-84 *)
Definition sql_from_insert (db tbl : bytes) (r : rows_v2) (defs : list column_def) : res prepared_sql :=
  rbind (filter_col_defs (r_present_bitmap r) defs) (fun defs =>
  rmap (mk_prepared db (insert_sql_fragments db tbl defs)) (sequence (map (params_of defs) (r_rows r)))).
(** sql.rs:86-105 *)
Definition sql_from_delete (db tbl : bytes) (r : rows_v2) (defs : list column_def) : res prepared_sql :=
  rbind (filter_col_defs (r_present_bitmap r) defs) (fun defs =>
  rmap (mk_prepared db (delete_sql_fragments db tbl defs)) (sequence (map (key_params_of defs) (r_rows r)))).
(** sql.rs:107-131: [rows] holds (before, after), the parameters are after then before *)
Definition sql_from_update (db tbl : bytes) (u : update_rows_v2) (defs : list column_def) : res prepared_sql :=
  rbind (filter_col_defs (u_before_present_bitmap u) defs) (fun before =>
  rbind (filter_col_defs (u_after_present_bitmap u) defs) (fun after =>
  rmap (mk_prepared db (update_sql_fragments db tbl before after))
    (sequence (map (fun row =>
       rbind (params_of after (snd row)) (fun a => rbind (key_params_of before (fst row)) (fun b => Ok (a ++ b))))
       (u_rows u))))).

Section Sql.
  (** [f32::to_string] and [f64::to_string] of the given bit pattern *)
  Variables fmt_f32 fmt_f64 : N -> bytes.

  (** sql.rs:142-149 *)
  Definition param_text (p : stmt_value) : res bytes :=
    rmap (fun l : bytes * bool => if snd l then str "'" ++ fst l ++ str "'" else fst l) (to_sql_literal fmt_f32 fmt_f64 p).
  (** sql.rs:139-155: the fragments with the next parameter for every placeholder; nothing
      when the parameters are used up *)
  Fixpoint fill (frs : list bytes) (params : list stmt_value) : res bytes :=
    match frs with
    | [] => Ok []
    | f :: frs =>
        if beqb f (str "?") then
          match params with
          | p :: params => rbind (param_text p) (fun s => rmap (app s) (fill frs params))
          | [] => fill frs []
          end
        else rmap (app f) (fill frs params)
    end.
  (** sql.rs:134-160 *)
  Definition sql_list (q : prepared_sql) : res (list bytes) := sequence (map (fill (q_fragments q)) (q_params q)).
End Sql.

(** ** transform/json.rs *)
(** base64 0.13, [encode]: standard alphabet, padded *)
Definition base64_char (n : N) : byte :=
  if n <? 26 then n2b (65 + n) else if n <? 52 then n2b (71 + n) else if n <? 62 then n2b (n - 4)
  else if n =? 62 then n2b 43 else n2b 47.
Fixpoint base64_encode (bs : bytes) : bytes :=
  match bs with
  | a :: b :: c :: bs =>
      let n := b2n a * 65536 + b2n b * 256 + b2n c in
      base64_char (n / 262144) :: base64_char (n / 4096 mod 64) :: base64_char (n / 64 mod 64) :: base64_char (n mod 64)
      :: base64_encode bs
  | [a; b] =>
      let n := b2n a * 65536 + b2n b * 256 in
      [base64_char (n / 262144); base64_char (n / 4096 mod 64); base64_char (n / 64 mod 64); n2b 61]
  | [a] =>
      let n := b2n a * 65536 in
      [base64_char (n / 262144); base64_char (n / 4096 mod 64); n2b 61; n2b 61]
  | [] => []
  end.

(** [serde_json::Value], the kinds produced here; a float number by its bit pattern *)
Inductive json_value : Type :=
| JNull | JInt (z : Z) | JFloat (bits : N) | JString (s : bytes).
(** [serde_json::Map]: a [BTreeMap<String, Value>], as its entries in key order *)
Definition json_map := list (bytes * json_value).
(** byte-wise string order *)
Fixpoint bytes_ltb (a b : bytes) : bool :=
  match a, b with
  | _, [] => false
  | [], _ :: _ => true
  | x :: a, y :: b => if b2n x <? b2n y then true else if b2n y <? b2n x then false else bytes_ltb a b
  end.
(** [Map::insert] *)
Fixpoint map_insert (k : bytes) (v : json_value) (m : json_map) : json_map :=
  match m with
  | [] => [(k, v)]
  | (k', v') :: m' =>
      if beqb k k' then (k, v) :: m' else if bytes_ltb k k' then (k, v) :: m else (k', v') :: map_insert k v m'
  end.

(** [f64] is finite: [Number::from_f64] gives [Some] *)
Definition finite64 (bits : N) : bool := negb (N.land (N.shiftr bits 52) 0x7ff =? 0x7ff).
(** json.rs:178-204: the hours are checked u32 arithmetic *)
Definition json_time (t : my_time) : res bytes :=
  rbind (cmul 32 (t_days t) 24) (fun h =>
  rbind (cadd 32 h (t_hour t)) (fun h =>
  Ok ((if t_neg t then str "-" else []) ++ fmt_pad 2 h ++ str ":" ++ fmt_pad 2 (t_minute t) ++ str ":"
      ++ fmt_pad 2 (t_second t) ++ (if t_micro t =? 0 then [] else str "." ++ fmt_pad 6 (t_micro t))))).
(** json.rs:152-164 *)
Definition json_datetime (t : my_datetime) : bytes :=
  fmt_pad 4 (dt_year t) ++ str "-" ++ fmt_pad 2 (dt_month t) ++ str "-" ++ fmt_pad 2 (dt_day t) ++ str " "
  ++ fmt_pad 2 (dt_hour t) ++ str ":" ++ fmt_pad 2 (dt_minute t) ++ str ":" ++ fmt_pad 2 (dt_second t)
  ++ (if dt_micro t =? 0 then [] else str "." ++ fmt_pad 6 (dt_micro t)).
(** json.rs:206-213: shifting by 64 bits or more panics *)
Fixpoint json_bit_loop (bs : bytes) (i : N) (n : N) : res N :=
  match bs with
  | [] => Ok n
  | b :: bs =>
      if 64 <=? i * 8 then Panic PArith
      else rbind (cadd 64 n (trunc 64 (N.shiftl (b2n b) (i * 8)))) (json_bit_loop bs (i + 1))
  end.

Section Json.
  (** External: [v as f64] of an [f32], on bit patterns *)
  Variable widen : N -> N.

  Definition json_int (unsigned : bool) (k n : N) : json_value :=
    JInt (if unsigned then Z.of_N n else to_signed k n).
  (** json.rs:121-222: the value and whether it is base64 *)
  Definition to_json_value (sv : stmt_value) : res (json_value * bool) :=
    let plain v := Ok (v, false) in
    match sv_val sv with
    | BTiny v => plain (json_int (sv_unsigned sv) 8 v)
    | BShort v | BYear v => plain (json_int (sv_unsigned sv) 16 v)
    | BLong v => plain (json_int (sv_unsigned sv) 32 v)
    | BFloat v => if finite64 (widen v) then plain (JFloat (widen v)) else Panic PUnwrap
    | BDouble v => if finite64 v then plain (JFloat v) else Panic PUnwrap
    | BNull => plain JNull
    | BTimestamp ts | BDateTime ts => plain (JString (json_datetime ts))
    | BLongLong v => plain (json_int (sv_unsigned sv) 64 v)
    | BInt24 v => plain (json_int (sv_unsigned sv) 32 v)
    | BDate y m d => plain (JString (fmt_pad 4 y ++ str "-" ++ fmt_pad 2 m ++ str "-" ++ fmt_pad 2 d))
    | BTime t => rmap (fun s => (JString s, false)) (json_time t)
    | BBit bs => rmap (fun n => (JInt (Z.of_N n), false)) (json_bit_loop bs 0 0)
    | BNewDecimal bs | BVarString bs | BString bs => if utf8_valid bs then plain (JString bs) else Panic PUnwrap
    | BBlob bs | BGeometry bs => Ok (JString (base64_encode bs), true)
    end.

  (** json.rs:224-235 *)
  Inductive json_kind := JkInsert | JkDelete | JkUpdate.
  Record json_row := mk_json {
    j_type : json_kind; j_base64 : list bytes; j_db : bytes; j_tbl : bytes;
    j_before : option json_map; j_after : option json_map }.

  (** json.rs:25-32 (and 58-65, 89-96): fill a map, collecting the names of base64 values *)
  Fixpoint json_cols (cells : list (col_def * binlog_value)) (m : json_map) (enc : list bytes) : res (json_map * list bytes) :=
    match cells with
    | [] => Ok (m, enc)
    | (def, col) :: cells =>
        rbind (sv_of_binlog col (f_unsigned def)) (fun sv =>
        rbind (to_json_value sv) (fun p =>
        json_cols cells (map_insert (f_name def) (fst p) m) (if snd p : bool then enc ++ [f_name def] else enc)))
    end.
  (** json.rs:97-104: a name is listed once *)
  Fixpoint json_cols_after (cells : list (col_def * binlog_value)) (m : json_map) (enc : list bytes) : res (json_map * list bytes) :=
    match cells with
    | [] => Ok (m, enc)
    | (def, col) :: cells =>
        rbind (sv_of_binlog col (f_unsigned def)) (fun sv =>
        rbind (to_json_value sv) (fun p =>
        json_cols_after cells (map_insert (f_name def) (fst p) m)
          (if (snd p : bool) && negb (existsb (beqb (f_name def)) enc) then enc ++ [f_name def] else enc)))
    end.
  (** json.rs:15-46 *)
  Definition json_from_insert (db tbl : bytes) (r : rows_v2) (defs : list column_def) : res (list json_row) :=
    rbind (filter_col_defs (r_present_bitmap r) defs) (fun defs =>
    sequence (map (fun cols =>
      rmap (fun p : json_map * list bytes => mk_json JkInsert (snd p) db tbl None (Some (fst p)))
        (json_cols (combine defs cols) [] [])) (r_rows r))).
  (** json.rs:48-79 *)
  Definition json_from_delete (db tbl : bytes) (r : rows_v2) (defs : list column_def) : res (list json_row) :=
    rbind (filter_col_defs (r_present_bitmap r) defs) (fun defs =>
    sequence (map (fun cols =>
      rmap (fun p : json_map * list bytes => mk_json JkDelete (snd p) db tbl (Some (fst p)) None)
        (json_cols (combine defs cols) [] [])) (r_rows r))).
  (** json.rs:81-118 *)
  Definition json_from_update (db tbl : bytes) (u : update_rows_v2) (defs : list column_def) : res (list json_row) :=
    rbind (filter_col_defs (u_before_present_bitmap u) defs) (fun before_defs =>
    rbind (filter_col_defs (u_after_present_bitmap u) defs) (fun after_defs =>
    sequence (map (fun cols =>
      rbind (json_cols (combine before_defs (fst cols)) [] []) (fun b =>
      rbind (json_cols_after (combine after_defs (snd cols)) [] (snd b)) (fun a =>
      Ok (mk_json JkUpdate (snd a) db tbl (Some (fst b)) (Some (fst a)))))) (u_rows u)))).
End Json.
