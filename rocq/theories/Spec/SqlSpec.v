(** * Independent specification: how MySQL reads SQL text

    Written from the MySQL 5.7 manual, "Literal Values", "String Literals", "Hexadecimal
    Literals", "Schema Object Names".  Only the lexical level, which is what decides
    whether a generated statement says what was meant. *)
From Coq Require Import Strings.String.
From Coq Require Import List NArith ZArith Arith Bool.
From Verif Require Import Model.Base Model.Utf8 Model.Auth Model.Time Model.Decimal Model.Col Spec.BitmapSpec Spec.Nums Spec.Wire Spec.Temporal Spec.DecimalSpec.
Import ListNotations.
Open Scope N_scope.

(** ** Lexical analysis *)
Inductive token : Type :=
| TkWord (s : bytes)     (* keyword or unquoted name *)
| TkName (s : bytes)     (* `name` *)
| TkNum (s : bytes)      (* digits, possibly with a fraction *)
| TkText (s : bytes)     (* 'text' *)
| TkHex (s : bytes)      (* x'6869' *)
| TkSym (b : byte).      (* anything else *)

Definition quote : byte := n2b 39.
Definition backslash : byte := n2b 92.
Definition backtick : byte := n2b 96.
Definition is_dig (b : byte) : bool := (48 <=? b2n b) && (b2n b <=? 57).
Definition is_let (b : byte) : bool :=
  (65 <=? b2n b) && (b2n b <=? 90) || (97 <=? b2n b) && (b2n b <=? 122) || (b2n b =? 95) || (b2n b =? 36) || (128 <=? b2n b).
Definition is_space (b : byte) : bool := (b2n b =? 32) || (9 <=? b2n b) && (b2n b <=? 13).

(** what [\c] stands for *)
Definition unescape (c : byte) : bytes :=
  match b2n c with
  | 48 => [n2b 0] | 98 => [n2b 8] | 110 => [n2b 10] | 114 => [n2b 13] | 116 => [n2b 9] | 90 => [n2b 26]
  | 37 => [backslash; c] | 95 => [backslash; c]
  | _ => [c]
  end.
(** the rest of a string literal, after its opening quote: content, and what follows the
    closing quote.  [esc]: the SQL mode NO_BACKSLASH_ESCAPES is off (the default). *)
Fixpoint scan_text (esc : bool) (s : bytes) : option (bytes * bytes) :=
  match s with
  | [] => None
  | b :: s =>
      if Byte.eqb b quote then
        match s with
        | c :: s2 => if Byte.eqb c quote
                     then match scan_text esc s2 with Some (t, r) => Some (quote :: t, r) | None => None end
                     else Some ([], s)
        | [] => Some ([], [])
        end
      else if esc && Byte.eqb b backslash then
        match s with
        | c :: s2 => match scan_text esc s2 with Some (t, r) => Some (unescape c ++ t, r) | None => None end
        | [] => None
        end
      else match scan_text esc s with Some (t, r) => Some (b :: t, r) | None => None end
  end.
(** the rest of a quoted name *)
Fixpoint scan_name (s : bytes) : option (bytes * bytes) :=
  match s with
  | [] => None
  | b :: s =>
      if Byte.eqb b backtick then
        match s with
        | c :: s2 => if Byte.eqb c backtick
                     then match scan_name s2 with Some (t, r) => Some (backtick :: t, r) | None => None end
                     else Some ([], s)
        | [] => Some ([], [])
        end
      else match scan_name s with Some (t, r) => Some (b :: t, r) | None => None end
  end.
(** the longest prefix of bytes with [p] *)
Fixpoint span (p : byte -> bool) (s : bytes) : bytes * bytes :=
  match s with
  | b :: s' => if p b then let '(a, r) := span p s' in (b :: a, r) else ([], s)
  | [] => ([], [])
  end.
Definition hex_val (b : byte) : option N :=
  if is_dig b then Some (b2n b - 48)
  else if (65 <=? b2n b) && (b2n b <=? 70) then Some (b2n b - 55)
  else if (97 <=? b2n b) && (b2n b <=? 102) then Some (b2n b - 87)
  else None.
(** the rest of a hexadecimal literal *)
Fixpoint scan_hex (s : bytes) : option (bytes * bytes) :=
  match s with
  | b :: s1 =>
      if Byte.eqb b quote then Some ([], s1)
      else match s1 with
           | c :: s2 =>
               match hex_val b, hex_val c, scan_hex s2 with
               | Some h, Some l, Some (t, r) => Some (n2b (16 * h + l) :: t, r)
               | _, _, _ => None
               end
           | [] => None
           end
  | [] => None
  end.

(** one token from text that does not start with white space: the token and the rest *)
Definition token_of (esc : bool) (s : bytes) : option (token * bytes) :=
  match s with
  | [] => None
  | b :: s1 =>
      if Byte.eqb b quote then
        match scan_text esc s1 with Some (t, r) => Some (TkText t, r) | None => None end
      else if Byte.eqb b backtick then
        match scan_name s1 with Some (t, r) => Some (TkName t, r) | None => None end
      else if is_dig b || is_let b then
        let '(w, r) := span (fun c => is_dig c || is_let c) s in
        if forallb is_dig w then
          match r with
          | d :: r1 => if Byte.eqb d (n2b 46)
                       then let '(f, r2) := span is_dig r1 in Some (TkNum (w ++ d :: f), r2)
                       else Some (TkNum w, r)
          | [] => Some (TkNum w, r)
          end
        else if (beqb w (str "x") || beqb w (str "X")) then
          match r with
          | d :: r1 => if Byte.eqb d quote
                       then match scan_hex r1 with Some (t, r2) => Some (TkHex t, r2) | None => None end
                       else Some (TkWord w, r)
          | [] => Some (TkWord w, r)
          end
        else Some (TkWord w, r)
      else Some (TkSym b, s1)
  end.
(** every token takes at least a byte: the length of the text is enough fuel *)
Fixpoint lex_from (fuel : nat) (esc : bool) (s : bytes) : option (list token) :=
  match s with
  | [] => Some []
  | b :: s1 =>
      match fuel with
      | O => None
      | S fuel =>
          if is_space b then lex_from fuel esc s1
          else match token_of esc s with
               | Some (t, r) => option_map (cons t) (lex_from fuel esc r)
               | None => None
               end
      end
  end.
(** the tokens of a text; [None]: not terminated *)
Definition lex (esc : bool) (s : bytes) : option (list token) := lex_from (length s) esc s.

(** [s], where a value is expected in a statement, is read as the tokens [ts]: whatever
    follows, as long as it starts with white space, a comma or a closing parenthesis *)
Definition delimited (rest : bytes) : Prop :=
  match rest with [] => True | b :: _ => In (b2n b) [32; 41; 44] end.
Definition reads_as (esc : bool) (s : bytes) (ts : list token) : Prop :=
  forall rest, delimited rest -> lex esc (s ++ rest) = option_map (app ts) (lex esc rest).

(** ** Values *)
Inductive sql_value : Type :=
| VNull | VInt (z : Z) | VNumber (neg : bool) (s : bytes) | VText (s : bytes) | VBinary (s : bytes).
Definition minus (neg : bool) : list token := if neg then [TkSym (n2b 45)] else [].
Definition value_tokens (x : sql_value) (ts : list token) : Prop :=
  match x with
  | VNull => ts = [TkWord (str "null")] \/ ts = [TkWord (str "NULL")]
  | VInt z => exists s, numeral (Z.abs_N z) s /\ ts = minus (z <? 0)%Z ++ [TkNum s]
  | VNumber neg s => ts = minus neg ++ [TkNum s]
  | VText s => ts = [TkText s]
  | VBinary s => ts = [TkHex s]
  end.

(** a text for a date and time *)
Definition text_date (y m d : N) : bytes := digits 4 y ++ str "-" ++ digits 2 m ++ str "-" ++ digits 2 d.
Definition text_fraction (us : N) : bytes := if us =? 0 then [] else str "." ++ digits 6 us.
Definition text_datetime (t : my_datetime) : bytes :=
  text_date (dt_year t) (dt_month t) (dt_day t) ++ str " " ++ digits 2 (dt_hour t) ++ str ":" ++ digits 2 (dt_minute t)
  ++ str ":" ++ digits 2 (dt_second t) ++ text_fraction (dt_micro t).

(** ** Points in time *)
(** days from 0001-01-01 to the first of January of year [y] *)
Definition days_before_year (y : N) : N := 365 * (y - 1) + (y - 1) / 4 - (y - 1) / 100 + (y - 1) / 400.
Definition is_leap (y : N) : bool := (y mod 400 =? 0) || (y mod 4 =? 0) && negb (y mod 100 =? 0).
Definition days_before_month (y m : N) : N :=
  nth (N.to_nat m - 1) [0; 31; 59; 90; 120; 151; 181; 212; 243; 273; 304; 334] 0 + (if (2 <? m) && is_leap y then 1 else 0).
Definition day_number (y m d : N) : N := days_before_year y + days_before_month y m + (d - 1).
(** seconds since 1970-01-01 00:00:00 UTC *)
Definition epoch_seconds (t : my_datetime) : N :=
  (day_number (dt_year t) (dt_month t) (dt_day t) - day_number 1970 1 1) * 86400
  + dt_hour t * 3600 + dt_minute t * 60 + dt_second t.

(** the dates of a calendar that goes back to the year 0 *)
Definition month_days (y m : N) : N :=
  match m with 2 => if is_leap y then 29 else 28 | 4 | 6 | 9 | 11 => 30 | _ => 31 end.
Definition calendar_date (y m d : N) : Prop := y <= 9999 /\ 1 <= m <= 12 /\ 1 <= d <= month_days y m.

(** ** Logged column values *)
(** a number as the lexer takes it: digits, possibly a fraction *)
Definition number_text (s : bytes) : Prop :=
  exists a f, a <> [] /\ forallb is_dig (a ++ f) = true /\ (s = a \/ s = a ++ n2b 46 :: f).
Inductive logged_int (unsigned : bool) (k n : N) : Z -> Prop :=
| li_unsigned : unsigned = true -> n < 2 ^ k -> logged_int unsigned k n (Z.of_N n)
| li_signed z : unsigned = false -> n < 2 ^ k -> twos (Z.of_N k) n z -> logged_int unsigned k n z.

Section Logged.
  (** the text Rust prints for an [f32] and an [f64] *)
  Variables fmt_f32 fmt_f64 : N -> bytes.
  (** [logged unsigned v x]: the column value [v] of a row event, the column being unsigned or
      not, is the SQL value [x].  DECIMAL: only where the library prints it right, see C37. *)
  Inductive logged (unsigned : bool) : binlog_value -> sql_value -> Prop :=
  | lg_null : logged unsigned LNull VNull
  | lg_tiny n z : logged_int unsigned 8 n z -> logged unsigned (LTiny n) (VInt z)
  | lg_short n z : logged_int unsigned 16 n z -> logged unsigned (LShort n) (VInt z)
  | lg_int24 n z : logged_int unsigned 24 n z -> logged unsigned (LInt24 n) (VInt z)
  | lg_long n z : logged_int unsigned 32 n z -> logged unsigned (LLong n) (VInt z)
  | lg_longlong n z : logged_int unsigned 64 n z -> logged unsigned (LLongLong n) (VInt z)
  | lg_float n (neg : bool) s : fmt_f32 n = (if neg then [n2b 45] else []) ++ s -> number_text s ->
      logged unsigned (LFloat n) (VNumber neg s)
  | lg_double n (neg : bool) s : fmt_f64 n = (if neg then [n2b 45] else []) ++ s -> number_text s ->
      logged unsigned (LDouble n) (VNumber neg s)
  | lg_decimal d intg frac neg i f s : intg mod 9 <> 0 -> i < 10 ^ intg -> no_padding intg frac i f ->
      fst (read_decimal intg frac (decimal_bytes intg frac neg i f)) = Ok d -> decimal_text frac false i f s ->
      logged unsigned (LNewDecimal d) (VNumber neg s)
  | lg_timestamp t : calendar_date (dt_year t) (dt_month t) (dt_day t) ->
      1970 <= dt_year t -> dt_hour t < 24 -> dt_minute t < 60 -> dt_second t < 60 -> dt_micro t = 0 ->
      logged unsigned (LTimestamp (epoch_seconds t)) (VText (text_datetime t))
  | lg_date y m d : logged unsigned (LDate y m d) (VText (text_date y m d))
  | lg_time t : logged unsigned (LTime t) (VText (text_time (if t_micro t =? 0 then 0 else 6) t))
  | lg_datetime t : logged unsigned (LDateTime t) (VText (text_datetime t))
  | lg_year n : logged unsigned (LYear n) (VInt (Z.of_N n))
  | lg_bit bs : logged unsigned (LBit bs) (VInt (Z.of_N (be_val bs)))
  | lg_enum e n : In e [Pack1 n; Pack2 n; Pack3 n; Pack4 n; Pack8 n] -> logged unsigned (LEnum e) (VInt (Z.of_N n))
  | lg_varstring bs : logged unsigned (LVarString bs) (VText bs)
  | lg_string bs : logged unsigned (LString bs) (VText bs)
  | lg_blob bs : logged unsigned (LBlob bs) (VBinary bs).
End Logged.

(** the values whose literal is right: the exceptions are the findings of C40 *)
(** every backslash comes before a percent sign or an underscore: what stands for itself *)
Fixpoint kept_escapes (bs : bytes) : Prop :=
  match bs with
  | [] => True
  | b :: bs => (b = backslash -> exists c r, bs = c :: r /\ (b2n c = 37 \/ b2n c = 95)) /\ kept_escapes bs
  end.
Definition plain_text (esc : bool) (bs : bytes) : Prop :=
  utf8_valid bs = true /\ (esc = true -> kept_escapes bs) /\ (~ In quote bs \/ Forall (fun b => b2n b < 128) bs).
Definition expressible (esc : bool) (v : binlog_value) : Prop :=
  match v with
  | LVarString bs | LString bs => plain_text esc bs
  | LDate y m d => calendar_date y m d
  | LDateTime t => calendar_date (dt_year t) (dt_month t) (dt_day t) /\
      dt_hour t < 24 /\ dt_minute t < 60 /\ dt_second t < 60 /\ dt_micro t = 0
  | LTime t => stored_time 6 t
  | LBit bs => (length bs <= 8)%nat /\ rev bs = bs
  | _ => True
  end.

(** what is read for a text that holds a quote: every byte from 128 on becomes two *)
Definition latin1 (bs : bytes) : bytes :=
  flat_map (fun b => if b2n b <? 128 then [b] else [n2b (192 + b2n b / 64); n2b (128 + b2n b mod 64)]) bs.

(** ** Statements *)
Definition sep_by (sep : list token) (l : list (list token)) : list token :=
  match l with [] => [] | x :: l => x ++ flat_map (fun y => sep ++ y) l end.
Definition comma : list token := [TkSym (n2b 44)].
Definition dotted (db tbl : bytes) : list token := [TkName db; TkSym (n2b 46); TkName tbl].
Definition equals (p : bytes * list token) : list token := [TkName (fst p); TkSym (n2b 61)] ++ snd p.
(** INSERT INTO db.tbl (names) VALUES (values) *)
Definition insert_tokens (db tbl : bytes) (cols : list (bytes * list token)) : list token :=
  [TkWord (str "INSERT"); TkWord (str "INTO")] ++ dotted db tbl ++ [TkSym (n2b 40)]
  ++ sep_by comma (map (fun p => [TkName (fst p)]) cols) ++ [TkSym (n2b 41); TkWord (str "VALUES"); TkSym (n2b 40)]
  ++ sep_by comma (map snd cols) ++ [TkSym (n2b 41)].
(** DELETE FROM db.tbl WHERE k = v AND ... *)
Definition delete_tokens (db tbl : bytes) (keys : list (bytes * list token)) : list token :=
  [TkWord (str "DELETE"); TkWord (str "FROM")] ++ dotted db tbl ++ [TkWord (str "WHERE")]
  ++ sep_by [TkWord (str "AND")] (map equals keys).
(** UPDATE db.tbl SET c = v, ... WHERE k = v AND ... *)
Definition update_tokens (db tbl : bytes) (sets keys : list (bytes * list token)) : list token :=
  [TkWord (str "UPDATE")] ++ dotted db tbl ++ [TkWord (str "SET")] ++ sep_by comma (map equals sets)
  ++ [TkWord (str "WHERE")] ++ sep_by [TkWord (str "AND")] (map equals keys).

(** columns of a table: bit 5 of the flags is UNSIGNED, bits 1 and 2 are PRI_KEY and UNIQUE_KEY *)
Definition is_unsigned (d : column_def) : bool := N.testbit (cd_flags d) 5.
Definition is_key (d : column_def) : bool := N.testbit (cd_flags d) 1 || N.testbit (cd_flags d) 2.
Definition plain_name (name : bytes) : Prop := ~ In backtick name.
(** the bitmap says that exactly the first [k] of [n] columns are in the row image; [k = n]: a
    full image, what MySQL logs unless told otherwise *)
Definition first_present (n k : nat) (bitmap : bytes) : Prop :=
  (n <= 8 * length bitmap)%nat /\ forall i, (i < n)%nat -> bit bitmap i = (i <? k)%nat.

Section Rows.
  Variables fmt_f32 fmt_f64 : N -> bytes.
  Variable esc : bool.
  (** the logged values of the columns [ds] are the SQL values [xs] *)
  Inductive row_means : list column_def -> list binlog_value -> list sql_value -> Prop :=
  | rm_nil : row_means [] [] []
  | rm_cons d v x ds vs xs : logged fmt_f32 fmt_f64 (is_unsigned d) v x -> expressible esc v -> row_means ds vs xs ->
      row_means (d :: ds) (v :: vs) (x :: xs).
End Rows.

(** columns with tokens of their values *)
Inductive cols_tokens : list column_def -> list sql_value -> list (column_def * list token) -> Prop :=
| ct_nil : cols_tokens [] [] []
| ct_cons d x ts ds xs l : value_tokens x ts -> cols_tokens ds xs l -> cols_tokens (d :: ds) (x :: xs) ((d, ts) :: l).
Definition named (l : list (column_def * list token)) : list (bytes * list token) := map (fun p => (cd_name (fst p), snd p)) l.
Definition keys_of (l : list (column_def * list token)) : list (column_def * list token) := filter (fun p => is_key (fst p)) l.

(** the statement [s] inserts the row [xs] of the columns [ds] *)
Definition inserts (esc : bool) (db tbl : bytes) (ds : list column_def) (xs : list sql_value) (s : bytes) : Prop :=
  exists l, cols_tokens ds xs l /\ lex esc s = Some (insert_tokens db tbl (named l)).
(** deletes the rows with the key of the row [xs] *)
Definition deletes (esc : bool) (db tbl : bytes) (ds : list column_def) (xs : list sql_value) (s : bytes) : Prop :=
  exists l, cols_tokens ds xs l /\ lex esc s = Some (delete_tokens db tbl (named (keys_of l))).
(** sets all columns to [xs'] in the rows with the key of the row [xs] *)
Definition updates (esc : bool) (db tbl : bytes) (ds ds' : list column_def) (xs xs' : list sql_value) (s : bytes) : Prop :=
  exists l l', cols_tokens ds xs l /\ cols_tokens ds' xs' l' /\ lex esc s = Some (update_tokens db tbl (named l') (named (keys_of l))).
