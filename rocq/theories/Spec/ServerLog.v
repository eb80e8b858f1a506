(** * Independent specification: a server that writes a log

    Tables with their columns, the bytes MySQL writes for a row (mysql-server 5.7: [Field::pack], [pack_row]) given as
    SQL values, and the events of a log given as what happened to the tables.  Nothing here mentions what a reader
    makes of the bytes.  Left out are the values that are known not to come through: see C36 (fractions of
    timestamps, some negative times), C37 (decimals) and C40 (texts that need escaping, fractions of seconds, wide
    BIT columns, zero dates).  [fmt_f32] and [fmt_f64] are the texts of floating-point numbers. *)
From Coq Require Import List NArith ZArith Arith Bool.
From Verif Require Import Model.Base Model.Utf8 Model.Time Model.Col
  Spec.Wire Spec.BitmapSpec Spec.Temporal Spec.DecimalSpec Spec.EventBodies Spec.BinlogValues Spec.BinlogSpec Spec.SqlSpec Spec.Replay.
Import ListNotations.
Open Scope N_scope.

(** ** Tables *)
Record column := mk_column
  { co_name : bytes; co_type : sql_type; co_unsigned : bool; co_primary : bool; co_unique : bool }.
(** [dc_nulls]: the columns that may be NULL, a bit each *)
Record declared := mk_declared { dc_db : bytes; dc_name : bytes; dc_cols : list column; dc_nulls : bytes }.
Definition dc_types (t : declared) : list sql_type := map co_type (dc_cols t).
Definition of_key (c : column) : bool := co_primary c || co_unique c.
(** the values of a column in the engine of Spec/Replay.v *)
Definition type_kind (ty : sql_type) : kind :=
  match ty with
  | SFloat | SDouble | SDecimal _ _ => KNumber
  | SDate | STimeT _ | SDatetime _ | STimestamp _ | SVarchar _ | SChar _ | SJson => KText
  | SBlob _ | SGeometryT => KBinary
  | _ => KInt
  end.
Definition dc_schema (t : declared) : schema := map (fun c => (co_name c, type_kind (co_type c))) (dc_cols t).
Definition holding (t : declared) (rows : list row) : table := mk_table (dc_db t) (dc_name t) (dc_schema t) rows.
(** a table that MySQL can have; no SET and no JSON column (C35) *)
Definition declared_ok (t : declared) : Prop :=
  dc_cols t <> [] /\ short (dc_db t) /\ short (dc_name t) /\ utf8_valid (dc_db t) = true /\ utf8_valid (dc_name t) = true /\
  N.of_nat (length (dc_cols t)) <= 4096 /\ Forall sql_type_ok (dc_types t) /\
  Forall (fun ty => match ty with SSet _ | SJson => False | _ => True end) (dc_types t) /\
  length (dc_nulls t) = ((length (dc_cols t) + 7) / 8)%nat.
(** the rows are of the right types, and told apart by the key columns *)
Definition rows_ok (t : declared) (rows : list row) : Prop :=
  Forall (typed (dc_schema t)) rows /\ key_holds (map of_key (dc_cols t)) rows.
(** names that need no escaping between backticks (C41) *)
Definition plain_names (t : declared) : Prop :=
  plain_name (dc_db t) /\ plain_name (dc_name t) /\ NoDup (map co_name (dc_cols t)) /\
  Forall (fun c => plain_name (co_name c)) (dc_cols t).

(** ** Rows *)
Section Values.
  Variables fmt_f32 fmt_f64 : N -> bytes.
  Variable esc : bool.
  (** a column of the type, UNSIGNED or not, that holds the value is logged as the bytes; of all the values that a column
      can hold (Spec/StoredValues.v), those that come through (C66_exact) *)
  Inductive written : sql_type -> bool -> sql_value -> bytes -> Prop :=
  | wr_tiny u n z : logged_int u 8 n z -> written STinyint u (VInt z) (wle 1 n)
  | wr_small u n z : logged_int u 16 n z -> written SSmallint u (VInt z) (wle 2 n)
  | wr_medium u n z : logged_int u 24 n z -> written SMediumint u (VInt z) (wle 3 n)
  | wr_int u n z : logged_int u 32 n z -> written SInt u (VInt z) (wle 4 n)
  | wr_big u n z : logged_int u 64 n z -> written SBigint u (VInt z) (wle 8 n)
  | wr_float u bits (neg : bool) s : bits < 2 ^ 32 -> fmt_f32 bits = (if neg then [n2b 45] else []) ++ s -> number_text s ->
      written SFloat u (VNumber neg s) (wle 4 bits)
  | wr_double u bits (neg : bool) s : bits < 2 ^ 64 -> fmt_f64 bits = (if neg then [n2b 45] else []) ++ s -> number_text s ->
      written SDouble u (VNumber neg s) (wle 8 bits)
  | wr_decimal u prec scale neg i f s : 1 <= prec <= 65 -> scale <= 30 -> scale <= prec ->
      i < 10 ^ (prec - scale) -> f < 10 ^ scale -> (prec - scale) mod 9 <> 0 -> no_padding (prec - scale) scale i f ->
      decimal_text scale false i f s -> written (SDecimal prec scale) u (VNumber neg s) (decimal_bytes (prec - scale) scale neg i f)
  | wr_year_zero u : written SYear u (VInt 0) [x00]
  | wr_year u y : 1901 <= y <= 2155 -> written SYear u (VInt (Z.of_N y)) (wle 1 (y - 1900))
  | wr_date u y m d : calendar_date y m d -> written SDate u (VText (text_date y m d)) (wle 3 (y * 512 + m * 32 + d))
  | wr_time u dec t : stored_time dec t -> (t_neg t = false \/ t_micro t = 0 \/ 5 <= dec) ->
      written (STimeT dec) u (VText (text_time (if t_micro t =? 0 then 0 else 6) t)) (time_bytes dec t)
  | wr_datetime u dec t : dec <= 6 -> calendar_date (dt_year t) (dt_month t) (dt_day t) ->
      dt_hour t < 24 -> dt_minute t < 60 -> dt_second t < 60 -> dt_micro t = 0 ->
      written (SDatetime dec) u (VText (text_datetime t)) (datetime_bytes dec t)
  | wr_timestamp u t : calendar_date (dt_year t) (dt_month t) (dt_day t) -> 1970 <= dt_year t ->
      dt_hour t < 24 -> dt_minute t < 60 -> dt_second t < 60 -> dt_micro t = 0 -> 0 < epoch_seconds t < 2 ^ 32 ->
      written (STimestamp 0) u (VText (text_datetime t)) (wbe 4 (epoch_seconds t))
  | wr_bit u m n bs : 1 <= m <= 64 -> n < 2 ^ m -> bs = wbe (N.to_nat ((m + 7) / 8)) n -> rev bs = bs ->
      written (SBit m) u (VInt (Z.of_N n)) bs
  | wr_enum1 u n : n < 2 ^ 8 -> written (SEnum 1) u (VInt (Z.of_N n)) (wle 1 n)
  | wr_enum2 u n : n < 2 ^ 16 -> written (SEnum 2) u (VInt (Z.of_N n)) (wle 2 n)
  | wr_blob u pack s : 1 <= pack <= 4 -> N.of_nat (length s) < 256 ^ pack ->
      written (SBlob pack) u (VBinary s) (wle (N.to_nat pack) (N.of_nat (length s)) ++ s)
  | wr_varchar u max s : max < 2 ^ 16 -> N.of_nat (length s) <= max -> plain_text esc s ->
      written (SVarchar max) u (VText s) (wle (if max <? 256 then 1 else 2) (N.of_nat (length s)) ++ s)
  | wr_char u len s : len < 2 ^ 10 -> N.of_nat (length s) <= len -> plain_text esc s ->
      written (SChar len) u (VText s) (wle (if len <? 256 then 1 else 2) (N.of_nat (length s)) ++ s).
  (** the values of a row that are not NULL *)
  Inductive row_parts : list column -> row -> list bytes -> Prop :=
  | rp_nil : row_parts [] [] []
  | rp_null c cols xs ps : row_parts cols xs ps -> row_parts (c :: cols) (VNull :: xs) ([] :: ps)
  | rp_value c cols x xs p ps : written (co_type c) (co_unsigned c) x p -> row_parts cols xs ps ->
      row_parts (c :: cols) (x :: xs) (p :: ps).
  Definition holds_null (x : sql_value) : bool := match x with VNull => true | _ => false end.
  (** a full row image: a bit for every NULL, then the values *)
  Definition row_written (cols : list column) (xs : row) (bs : bytes) : Prop :=
    exists nulls parts, row_parts cols xs parts /\ bitmap_of (map holds_null xs) nulls /\ bs = nulls ++ concat parts.

  (** ** Events *)
  Inductive entry :=
  | EMap (id : N) (t : declared)                   (** [id] stands for the table from now on *)
  | EInsert (id : N) (t : declared) (rows : list row)
  | EDelete (id : N) (t : declared) (rows : list row)
  | EUpdate (id : N) (t : declared) (rows : list (row * row))
  | EForeign (id : N)                              (** any rows of a table that is not looked at *)
  | ERotate                                        (** the log goes on in another file *)
  | EOther.                                        (** anything else *)
  Definition changes_of (e : entry) : list change :=
    match e with
    | EInsert _ _ rows => map CInsert rows
    | EDelete _ _ rows => map CDelete rows
    | EUpdate _ _ rows => map (fun p => CUpdate (fst p) (snd p)) rows
    | _ => []
    end.
  Definition rows_fields_ok (id flags : N) (extra : bytes) : Prop :=
    id < 2 ^ 48 /\ flags < 2 ^ 16 /\ N.of_nat (length extra) + 2 < 2 ^ 16.
  (** all columns are present *)
  Definition all_present (t : declared) (bs : bytes) : Prop := bitmap_of (repeat true (length (dc_cols t))) bs.
  Inductive logs : log_event -> entry -> Prop :=
  | logs_map e id flags t : le_code e = 19 -> id < 2 ^ 48 -> flags < 2 ^ 16 -> declared_ok t ->
      le_body e = wle 6 id ++ wle 2 flags ++ table_map_bytes (dc_db t) (dc_name t) (dc_types t) (dc_nulls t) ->
      logs e (EMap id t)
  | logs_insert e id flags extra t pb rows images : le_code e = 30 -> rows_fields_ok id flags extra -> declared_ok t ->
      all_present t pb -> Forall2 (row_written (dc_cols t)) rows images ->
      le_body e = rows_event_bytes id flags extra (rows_head extra (dc_types t) ++ pb ++ concat images) ->
      logs e (EInsert id t rows)
  | logs_delete e id flags extra t pb rows images : le_code e = 32 -> rows_fields_ok id flags extra -> declared_ok t ->
      all_present t pb -> Forall2 (row_written (dc_cols t)) rows images ->
      le_body e = rows_event_bytes id flags extra (rows_head extra (dc_types t) ++ pb ++ concat images) ->
      logs e (EDelete id t rows)
  | logs_update e id flags extra t bb ab rows images : le_code e = 31 -> rows_fields_ok id flags extra -> declared_ok t ->
      all_present t bb -> all_present t ab ->
      Forall2 (fun p bs => exists b a, row_written (dc_cols t) (fst p) b /\ row_written (dc_cols t) (snd p) a /\ bs = b ++ a) rows images ->
      le_body e = rows_event_bytes id flags extra (rows_head extra (dc_types t) ++ bb ++ ab ++ concat images) ->
      logs e (EUpdate id t rows)
  | logs_foreign e id flags extra payload : In (le_code e) [30; 31; 32] -> rows_fields_ok id flags extra ->
      le_body e = rows_event_bytes id flags extra payload -> logs e (EForeign id)
  | logs_rotate e : le_code e = 4 -> logs e ERotate
  | logs_other e : ~ In (le_code e) [4; 19; 30; 31; 32] -> logs e EOther.
End Values.

(** ** What the log says about the tables *)
(** the table an id stands for; [recent]: what was logged before, the last event first *)
Fixpoint mapped (recent : list entry) (id : N) : option declared :=
  match recent with
  | [] | ERotate :: _ => None
  | EMap i t :: recent => if i =? id then Some t else mapped recent id
  | _ :: recent => mapped recent id
  end.
(** no id is given to another table within a file (C44) *)
Fixpoint stable (recent entries : list entry) : Prop :=
  match entries with
  | [] => True
  | e :: entries =>
      match e with EMap id t => forall t', mapped recent id = Some t' -> t' = t | _ => True end /\ stable (e :: recent) entries
  end.
(** the part that is asked for: the file, or everything *)
Fixpoint within (all : bool) (entries : list entry) : list entry :=
  match entries with
  | [] => []
  | ERotate :: entries => if all then ERotate :: within all entries else []
  | e :: entries => e :: within all entries
  end.
Section History.
  Variable chosen : declared -> bool.
  (** deletes need a key column, updates one with both flags (C44) *)
  Definition replayable (e : entry) (t : declared) : Prop :=
    match e with
    | EDelete _ _ _ => existsb of_key (dc_cols t) = true
    | EUpdate _ _ _ => existsb (fun c => co_primary c && co_unique c) (dc_cols t) = true
    | _ => True
    end.
  Definition changes_rows_of (e : entry) : option (N * declared) :=
    match e with EInsert id t _ | EDelete id t _ | EUpdate id t _ => Some (id, t) | _ => None end.
  (** the chosen tables of the first database become those of the second *)
  Inductive server_history : list entry -> list entry -> database -> database -> Prop :=
  | sh_nil recent d : server_history recent [] d d
  | sh_change recent e entries id t d1 rows rows' d2 d' :
      changes_rows_of e = Some (id, t) -> mapped recent id = Some t -> chosen t = true -> replayable e t -> plain_names t ->
      Forall (fun x => is_table (dc_db t) (dc_name t) x = false) d1 -> history (rows_ok t) rows (changes_of e) rows' ->
      server_history (e :: recent) entries (d1 ++ holding t rows' :: d2) d' ->
      server_history recent (e :: entries) (d1 ++ holding t rows :: d2) d'
  | sh_foreign recent id entries d d' :
      match mapped recent id with Some t => chosen t = false | None => True end ->
      server_history (EForeign id :: recent) entries d d' -> server_history recent (EForeign id :: entries) d d'
  | sh_map recent id t entries d d' : server_history (EMap id t :: recent) entries d d' -> server_history recent (EMap id t :: entries) d d'
  | sh_rotate recent entries d d' : server_history (ERotate :: recent) entries d d' -> server_history recent (ERotate :: entries) d d'
  | sh_other recent entries d d' : server_history (EOther :: recent) entries d d' -> server_history recent (EOther :: entries) d d'.
  (** the chosen tables, each at its first mapping in a file *)
  Fixpoint first_mapped (recent entries : list entry) : list declared :=
    match entries with
    | [] => []
    | e :: entries =>
        match e with
        | EMap id t => match mapped recent id with None => if chosen t then [t] else [] | Some _ => [] end
        | _ => []
        end ++ first_mapped (e :: recent) entries
    end.
End History.
(** the log up to the first [k] changes of rows *)
Fixpoint first_changes (k : nat) (entries : list entry) : list entry :=
  if (k =? 0)%nat then [] else
  match entries with
  | [] => []
  | EInsert id t rows :: entries => EInsert id t (firstn k rows) :: first_changes (k - length rows) entries
  | EDelete id t rows :: entries => EDelete id t (firstn k rows) :: first_changes (k - length rows) entries
  | EUpdate id t rows :: entries => EUpdate id t (firstn k rows) :: first_changes (k - length rows) entries
  | e :: entries => e :: first_changes k entries
  end.
(** a column as the server describes it when asked: bits 5, 1 and 2 of the flags *)
Definition told (c : column) (d : column_def) : Prop :=
  cd_name d = co_name c /\ N.testbit (cd_flags d) 5 = co_unsigned c /\ N.testbit (cd_flags d) 1 = co_primary c /\
  N.testbit (cd_flags d) 2 = co_unique c.
(** the tables that two filters on the names let through *)
Definition filtered (db tbl : option (bytes -> bool)) (t : declared) : bool :=
  match db with Some f => f (dc_db t) | None => true end && match tbl with Some f => f (dc_name t) | None => true end.
(** the server has not altered the chosen tables since: asked for one, it describes the columns that were logged *)
Definition unaltered (chosen : declared -> bool) (defs_of : bytes -> bytes -> list column_def) (entries : list entry) : Prop :=
  forall id t, In (EMap id t) entries -> chosen t = true -> Forall2 told (dc_cols t) (defs_of (dc_db t) (dc_name t)).
(** how a run ends at a table map with a SET or a JSON column *)
Definition unsupported (ty : sql_type) (r : res unit) : Prop :=
  match ty with SSet _ => r = Panic PUnimplemented | SJson => r = Err EConstraint | _ => False end.
