(** * Independent specification: JSON rows *)
From Coq Require Import Strings.String.
From Coq Require Import List NArith ZArith Arith Bool Permutation Sorted.
From Verif Require Import Model.Base Model.Utf8 Model.Auth Model.Time Model.Col Model.Transform
  Spec.Temporal Spec.SqlSpec.
Import ListNotations.
Open Scope N_scope.

(** ** Base64 (RFC 4648): the reader *)
Definition alphabet : bytes := str "ABCDEFGHIJKLMNOPQRSTUVWXYZabcdefghijklmnopqrstuvwxyz0123456789+/".
Fixpoint position (b : byte) (l : bytes) (i : N) : option N :=
  match l with [] => None | c :: l => if Byte.eqb b c then Some i else position b l (i + 1) end.
Definition sextet (b : byte) : option N := position b alphabet 0.
Definition pad : byte := n2b 61.
(** four characters at a time: three bytes, or two or one at the end *)
Fixpoint base64_decode (s : bytes) : option bytes :=
  match s with
  | [] => Some []
  | c1 :: c2 :: c3 :: c4 :: s =>
      match sextet c1, sextet c2 with
      | Some a, Some b =>
          if Byte.eqb c3 pad then
            if Byte.eqb c4 pad then match s with [] => Some [n2b ((a * 64 + b) / 16)] | _ => None end else None
          else match sextet c3 with
               | Some c =>
                   if Byte.eqb c4 pad
                   then match s with [] => let n := ((a * 64 + b) * 64 + c) / 4 in Some [n2b (n / 256); n2b (n mod 256)] | _ => None end
                   else match sextet c4, base64_decode s with
                        | Some d, Some r => let n := ((a * 64 + b) * 64 + c) * 64 + d in
                                            Some (n2b (n / 65536) :: n2b (n / 256 mod 256) :: n2b (n mod 256) :: r)
                        | _, _ => None
                        end
               | None => None
               end
      | _, _ => None
      end
  | _ => None
  end.

(** ** Values *)
Section Json.
  Variable widen : N -> N.
  (** the exponent of the bit pattern of a double is not all ones *)
  Definition finite_double (bits : N) : Prop := bits / 2 ^ 52 mod 2 ^ 11 <> 2047.
  (** the logged value [v], which is the SQL value [x], as JSON *)
  Definition json_means (v : binlog_value) (x : sql_value) (j : json_value) : Prop :=
    match v, x with
    | LFloat n, _ => j = JFloat (widen n)
    | LDouble n, _ => j = JFloat n
    | _, VNull => j = JNull
    | _, VInt z => j = JInt z
    | _, VNumber neg s => j = JString ((if neg then [n2b 45] else []) ++ s)
    | _, VText s => j = JString s
    | _, VBinary bs => exists e, base64_decode e = Some bs /\ j = JString e
    end.
  (** the values with a right JSON value: the exceptions are the findings of C42 *)
  Definition json_expressible (v : binlog_value) : Prop :=
    match v with
    | LFloat n => finite_double (widen n)
    | LDouble n => finite_double n
    | LVarString bs | LString bs => utf8_valid bs = true
    | LDate _ _ _ | LDateTime _ | LTime _ | LBit _ => expressible true v
    | _ => True
    end.
  (** ** Rows *)
  Variables fmt_f32 fmt_f64 : N -> bytes.
  Inductive json_entries : list column_def -> list binlog_value -> list sql_value -> list (bytes * json_value) -> Prop :=
  | je_nil : json_entries [] [] [] []
  | je_cons d v x j ds vs xs es : logged fmt_f32 fmt_f64 (is_unsigned d) v x -> json_means v x j ->
      json_entries ds vs xs es -> json_entries (d :: ds) (v :: vs) (x :: xs) ((cd_name d, j) :: es).
  Inductive json_readable : list column_def -> list binlog_value -> list sql_value -> Prop :=
  | jr_nil : json_readable [] [] []
  | jr_cons d v x ds vs xs : logged fmt_f32 fmt_f64 (is_unsigned d) v x -> json_expressible v ->
      json_readable ds vs xs -> json_readable (d :: ds) (v :: vs) (x :: xs).
End Json.

(** byte-wise order of names *)
Definition name_lt (a b : bytes) : Prop :=
  exists p, (exists y t, a = p /\ b = p ++ y :: t) \/
            (exists x y s t, b2n x < b2n y /\ a = p ++ x :: s /\ b = p ++ y :: t).
(** an object with exactly these members, in name order *)
Definition object_of (es : list (bytes * json_value)) (m : json_map) : Prop :=
  Permutation m es /\ StronglySorted (fun p q => name_lt (fst p) (fst q)) m.
(** the columns with binary values *)
Inductive binary_names : list column_def -> list sql_value -> list bytes -> Prop :=
| bn_nil : binary_names [] [] []
| bn_binary d bs ds xs ns : binary_names ds xs ns -> binary_names (d :: ds) (VBinary bs :: xs) (cd_name d :: ns)
| bn_other d x ds xs ns : (forall bs, x <> VBinary bs) -> binary_names ds xs ns -> binary_names (d :: ds) (x :: xs) ns.
(** the names in [a], then those only in [b] *)
Definition merged (a b l : list bytes) : Prop :=
  exists c, l = a ++ c /\ NoDup l /\ forall n, In n l <-> In n a \/ In n b.

(** ** Row documents *)
Section Docs.
  Variable widen : N -> N.
  Variables fmt_f32 fmt_f64 : N -> bytes.
  (** an object with one member for every column *)
  Definition row_object (ds : list column_def) (vs : list binlog_value) (xs : list sql_value) (m : json_map) : Prop :=
    exists es, json_entries widen fmt_f32 fmt_f64 ds vs xs es /\ object_of es m.
  Definition json_insert (db tbl : bytes) ds vs xs (r : json_row) : Prop :=
    exists m, r = mk_json JkInsert (j_base64 r) db tbl None (Some m) /\ row_object ds vs xs m /\ binary_names ds xs (j_base64 r).
  Definition json_delete (db tbl : bytes) ds vs xs (r : json_row) : Prop :=
    exists m, r = mk_json JkDelete (j_base64 r) db tbl (Some m) None /\ row_object ds vs xs m /\ binary_names ds xs (j_base64 r).
  Definition json_update (db tbl : bytes) ds vs xs ds' vs' xs' (r : json_row) : Prop :=
    exists m m' ns ns', r = mk_json JkUpdate (j_base64 r) db tbl (Some m) (Some m') /\
      row_object ds vs xs m /\ row_object ds' vs' xs' m' /\
      binary_names ds xs ns /\ binary_names ds' xs' ns' /\ merged ns ns' (j_base64 r).
End Docs.
(** three lists of the same length related element by element *)
Inductive forall3 {A B C} (R : A -> B -> C -> Prop) : list A -> list B -> list C -> Prop :=
| f3_nil : forall3 R [] [] []
| f3_cons a b c l m n : R a b c -> forall3 R l m n -> forall3 R (a :: l) (b :: m) (c :: n).
