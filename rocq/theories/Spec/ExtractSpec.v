(** * Independent specification: values of columns as a user sees them

    MySQL 5.7 manual, "Integer Types", "Date and Time Data Types", and the binary protocol: a
    MEDIUMINT is sent in four bytes. *)
From Coq Require Import List NArith ZArith Arith Bool.
From Verif Require Import Model.Base Model.Col Model.Extract Spec.Wire Spec.Temporal.
Import ListNotations.
Open Scope N_scope.

(** ** Integer columns *)
Inductive int_type := ITiny | ISmall | IMedium | IInt | IBig.
Definition int_bits (t : int_type) : N :=
  match t with ITiny => 8 | ISmall => 16 | IMedium => 24 | IInt => 32 | IBig => 64 end.
Definition int_ct (t : int_type) : column_type :=
  match t with ITiny => TTiny | ISmall => TShort | IMedium => TInt24 | IInt => TLong | IBig => TLongLong end.
Definition int_wire (t : int_type) : nat :=
  match t with ITiny => 1 | ISmall => 2 | IMedium => 4 | IInt => 4 | IBig => 8 end%nat.
(** a signed (unsigned) column of type [t] holding the number, as sent by the server *)
Definition signed_cell (t : int_type) (z : Z) (bs : bytes) : Prop :=
  (- 2 ^ (Z.of_N (int_bits t) - 1) <= z < 2 ^ (Z.of_N (int_bits t) - 1))%Z /\ bs = wsle (int_wire t) z.
Definition unsigned_cell (t : int_type) (n : N) (bs : bytes) : Prop :=
  n < 2 ^ int_bits t /\ bs = wle (int_wire t) n.

(** the integer types rows can be asked for, with their width *)
Definition signed_targets : list (N * (binary_value -> res (option Z))) :=
  [(8, i8_from_binary); (16, i16_from_binary); (32, i32_from_binary); (64, i64_from_binary)].
Definition unsigned_targets : list (N * (binary_value -> res (option N))) :=
  [(8, u8_from_binary); (16, u16_from_binary); (32, u32_from_binary); (64, u64_from_binary)].
Definition signed_text_targets : list (N * (text_value -> res (option Z))) :=
  [(8, i8_from_text); (16, i16_from_text); (32, i32_from_text); (64, i64_from_text); (128, i128_from_text);
   (32, i24_from_text)].
Definition unsigned_text_targets : list (N * (text_value -> res (option N))) :=
  [(8, u8_from_text); (16, u16_from_text); (32, u32_from_text); (64, u64_from_text); (128, u128_from_text);
   (32, u24_from_text); (16, year_from_text)].

(** reading the value of a binary row's cell and extracting it *)
Definition extract {V} (ct : column_type) (from_col : binary_value -> res V) (bs : bytes) : res V :=
  rbind (fst (read_binary_value ct bs)) from_col.

(** [from_col] takes exactly the columns of the types [cts] *)
Definition takes {V} (cts : list column_type) (from_col : binary_value -> res (option V)) (ct : column_type)
  (v : binary_value) : Prop :=
  ct <> TNull -> (from_col v = Err EColType <-> ~ In ct cts).

(** ** Numbers in text: optional sign, then at least one decimal digit *)
Definition unsigned_text (n : N) (s : bytes) : Prop :=
  exists k sign, n < 10 ^ N.of_nat (S k) /\ s = sign ++ digits (S k) n /\ (sign = [] \/ sign = [n2b 43]).
Definition signed_text (z : Z) (s : bytes) : Prop :=
  exists k n sign, n < 10 ^ N.of_nat (S k) /\ s = sign ++ digits (S k) n /\
    ((sign = [] \/ sign = [n2b 43]) /\ z = Z.of_N n \/ sign = [n2b 45] /\ z = (- Z.of_N n)%Z).

(** ** Dates that exist *)
Definition leap_year (y : N) : Prop := y mod 400 = 0 \/ y mod 4 = 0 /\ y mod 100 <> 0.
Definition real_date (y m d : N) : Prop :=
  1 <= m <= 12 /\ 1 <= d /\
  (d <= 28 \/ d <= 30 /\ m <> 2 \/ d = 31 /\ In m [1; 3; 5; 7; 8; 10; 12] \/ d = 29 /\ m = 2 /\ leap_year y).

(** ** Names *)
(** [i] is the last column whose name satisfies [P] *)
Definition last_such (P : bytes -> Prop) (names : list bytes) (i : nat) : Prop :=
  (exists s, nth_error names i = Some s /\ P s) /\
  forall j s, (i < j)%nat -> nth_error names j = Some s -> ~ P s.
