(** * Independent specification: the JSON documents of a server's log

    What a document made from a logged row has to say, given the table and the SQL values of the row.  [widen]: a float
    as a double, on bit patterns; [fmt_f32] and [fmt_f64]: the texts of floating-point numbers. *)
From Coq Require Import List NArith ZArith Arith Bool Permutation Sorted.
From Verif Require Import Model.Base Model.Utf8 Model.Time Model.Col Model.Transform
  Spec.Wire Spec.BitmapSpec Spec.Temporal Spec.BinlogValues Spec.SqlSpec Spec.JsonSpec Spec.Replay Spec.ServerLog.
Import ListNotations.
Open Scope N_scope.

Section JsonLog.
  Variable widen : N -> N.
  Variables fmt_f32 fmt_f64 : N -> bytes.

  (** ** Values *)
  (** the SQL value [x] of a column of the type as JSON: decimals, times and texts as strings, floats as the double with
      that text, binary strings in base64 *)
  Definition as_json (ty : sql_type) (x : sql_value) (j : json_value) : Prop :=
    match x with
    | VNull => j = JNull
    | VInt z => j = JInt z
    | VText s => j = JString s
    | VBinary s => exists e, base64_decode e = Some s /\ j = JString e
    | VNumber neg s =>
        let text := (if neg then [n2b 45] else []) ++ s in
        match ty with
        | SFloat => exists bits, bits < 2 ^ 32 /\ fmt_f32 bits = text /\ j = JFloat (widen bits)
        | SDouble => exists bits, bits < 2 ^ 64 /\ fmt_f64 bits = text /\ j = JFloat bits
        | _ => j = JString text
        end
    end.
  Definition is_binary (x : sql_value) : bool := match x with VBinary _ => true | _ => false end.

  (** a column of the type that holds the value is logged as the bytes; of all the values that a column can hold
      (Spec/StoredValues.v), those with a right JSON value (C67_exact).  They are those with a right SQL literal, but
      any text that is UTF-8 will do, and no float may be too large for JSON. *)
  Inductive json_written : sql_type -> bool -> sql_value -> bytes -> Prop :=
  | jw_same ty u x bs : match ty with SFloat | SDouble | SVarchar _ | SChar _ => False | _ => True end ->
      written fmt_f32 fmt_f64 true ty u x bs -> json_written ty u x bs
  | jw_float u bits (neg : bool) s : bits < 2 ^ 32 -> fmt_f32 bits = (if neg then [n2b 45] else []) ++ s -> number_text s ->
      finite_double (widen bits) -> json_written SFloat u (VNumber neg s) (wle 4 bits)
  | jw_double u bits (neg : bool) s : bits < 2 ^ 64 -> fmt_f64 bits = (if neg then [n2b 45] else []) ++ s -> number_text s ->
      finite_double bits -> json_written SDouble u (VNumber neg s) (wle 8 bits)
  | jw_varchar u max s : max < 2 ^ 16 -> N.of_nat (length s) <= max -> utf8_valid s = true ->
      json_written (SVarchar max) u (VText s) (wle (if max <? 256 then 1 else 2) (N.of_nat (length s)) ++ s)
  | jw_char u len s : len < 2 ^ 10 -> N.of_nat (length s) <= len -> utf8_valid s = true ->
      json_written (SChar len) u (VText s) (wle (if len <? 256 then 1 else 2) (N.of_nat (length s)) ++ s).

  (** ** Rows *)
  (** the values of a row that are not NULL *)
  Inductive json_parts : list column -> row -> list bytes -> Prop :=
  | jp_nil : json_parts [] [] []
  | jp_null c cols xs ps : json_parts cols xs ps -> json_parts (c :: cols) (VNull :: xs) ([] :: ps)
  | jp_value c cols x xs p ps : json_written (co_type c) (co_unsigned c) x p -> json_parts cols xs ps ->
      json_parts (c :: cols) (x :: xs) (p :: ps).
  (** a full row image: a bit for every NULL, then the values *)
  Definition json_row_written (cols : list column) (xs : row) (bs : bytes) : Prop :=
    exists nulls parts, json_parts cols xs parts /\ bitmap_of (map holds_null xs) nulls /\ bs = nulls ++ concat parts.
  (** an object with the columns as members *)
  Inductive members : list column -> row -> list (bytes * json_value) -> Prop :=
  | mb_nil : members [] [] []
  | mb_cons c x j cols xs es : as_json (co_type c) x j -> members cols xs es -> members (c :: cols) (x :: xs) ((co_name c, j) :: es).
  Definition row_as_object (t : declared) (xs : row) (m : option json_map) : Prop :=
    exists es m', members (dc_cols t) xs es /\ object_of es m' /\ m = Some m'.
  (** the columns whose value is binary, in order *)
  Definition binary_columns (t : declared) (xs : row) : list bytes :=
    map (fun p => co_name (fst p)) (filter (fun p => is_binary (snd p)) (combine (dc_cols t) xs)).

  (** ** Documents *)
  Definition insert_doc (t : declared) (xs : row) (r : json_row) : Prop :=
    j_type r = JkInsert /\ j_db r = dc_db t /\ j_tbl r = dc_name t /\ j_before r = None /\ row_as_object t xs (j_after r) /\
    j_base64 r = binary_columns t xs.
  Definition delete_doc (t : declared) (xs : row) (r : json_row) : Prop :=
    j_type r = JkDelete /\ j_db r = dc_db t /\ j_tbl r = dc_name t /\ row_as_object t xs (j_before r) /\ j_after r = None /\
    j_base64 r = binary_columns t xs.
  (** binary before or after, each listed once *)
  Definition update_doc (t : declared) (p : row * row) (r : json_row) : Prop :=
    j_type r = JkUpdate /\ j_db r = dc_db t /\ j_tbl r = dc_name t /\ row_as_object t (fst p) (j_before r) /\ row_as_object t (snd p) (j_after r) /\
    merged (binary_columns t (fst p)) (binary_columns t (snd p)) (j_base64 r).
End JsonLog.
