(** * Basic vocabulary of the model: bytes, machine integers, outcomes, parsers.

    Nothing here models a particular function of /repo except where cited; it
    fixes how Rust values are represented. *)
From Coq Require Export List NArith ZArith Bool.
From Coq Require Export Strings.Byte.
Export ListNotations.
#[export] Set Printing Width 100.
Open Scope N_scope.

(** A Rust [u8] is [Coq.Init.Byte.byte]; [Bytes], [BytesMut], [Vec<u8>], [&[u8]]
    and (unvalidated) [String]/[SmolStr] contents are lists of bytes. *)
Definition bytes := list byte.

(** [b as u64] etc. *)
Definition b2n (b : byte) : N := Byte.to_N b.

(** [n as u8] : truncation to the low 8 bits. *)
Definition n2b (n : N) : byte :=
  match Byte.of_N (n mod 256) with Some b => b | None => x00 end.

(** [Buf::remaining] / [len()] as an unbounded number (Rust: usize). *)
Definition blen (bs : bytes) : N := N.of_nat (length bs).

(** [n as uK] : keep the low [k] bits. *)
Definition trunc (k n : N) : N := n mod 2 ^ k.

(** [(n : uK) as iK] : reinterpret as two's complement. *)
Definition to_signed (k n : N) : Z :=
  if n <? 2 ^ (k - 1) then Z.of_N n else (Z.of_N n - 2 ^ Z.of_N k)%Z.

(** [(z : iK) as uK], also used for narrowing casts from wider signed types. *)
Definition to_unsigned (k : N) (z : Z) : N := Z.to_N (z mod 2 ^ Z.of_N k)%Z.

(** ** Errors

    One type for [bytes_parser::error::Error] (bytes-parser/src/error.rs:6-26),
    [mybin_core::error::Error] (mybin-core/src/error.rs) and
    [mybin_async::error::Error] (mybin-async/src/error.rs:5-31).  The human
    readable message strings are dropped. *)
Inductive error : Type :=
| EIncomplete (needed : option N)   (* InputIncomplete; None = Needed::Unknown *)
| EConstraint                       (* ConstraintError(_) *)
| EUtf8                             (* Utf8Error / StrUtf8Error *)
| EIO                               (* IO error, incl. unexpected end of stream *)
| EOutput                           (* OutputUnavailable *)
| EColIndex                         (* ColumnIndexOutOfBound *)
| EColName                          (* ColumnNameNotFound *)
| EColType                          (* ColumnTypeMismatch *)
| ENull                             (* NullValueError *)
| EParseValue                       (* the various text parse errors *)
| EChecksum (expected actual : N)   (* BinlogChecksumMismatch *)
| EBinlogFormat                     (* InvalidBinlogFormat *)
| EBinlogEvent                      (* BinlogEventError *)
| EPacket                           (* PacketError(_) *)
| ESql (code : N) (marker : byte) (state msg : bytes) (* SqlError *)
| EEmptyResultSet                   (* EmptyResultSet *)
| ECustom.                          (* CustomError(_) *)

(** Why a Rust function panicked. *)
Inductive panic : Type :=
| PArith        (* checked arithmetic overflow (wraps silently in release builds) *)
| PIndex        (* index / split / advance out of bounds *)
| PUnwrap       (* unwrap() on None / Err *)
| PUnimplemented (* unimplemented!() *)
| PUnreachable  (* unreachable!() *)
| PAssert       (* debug_assert! *)
| PAlloc.       (* capacity overflow in Vec::with_capacity *)

(** Outcome of a call. [Loop] means that the fuel given to a model loop did not
    suffice. *)
Inductive res (A : Type) : Type :=
| Ok (a : A)
| Err (e : error)
| Panic (p : panic)
| Loop.
Arguments Ok {A} a.
Arguments Err {A} e.
Arguments Panic {A} p.
Arguments Loop {A}.

Definition rbind {A B} (x : res A) (f : A -> res B) : res B :=
  match x with Ok a => f a | Err e => Err e | Panic p => Panic p | Loop => Loop end.

Definition rmap {A B} (f : A -> B) (x : res A) : res B := rbind x (fun a => Ok (f a)).

(** ** Parsers: functions taking [&mut Bytes].  The second component is the
    remaining input, also after an error. *)
Definition parser (A : Type) := bytes -> res A * bytes.

Definition pret {A} (a : A) : parser A := fun bs => (Ok a, bs).
Definition pfail {A} (e : error) : parser A := fun bs => (Err e, bs).
Definition ppanic {A} (p : panic) : parser A := fun bs => (Panic p, bs).
Definition pbind {A B} (p : parser A) (f : A -> parser B) : parser B := fun bs =>
  match p bs with
  | (Ok a, rest) => f a rest
  | (Err e, rest) => (Err e, rest)
  | (Panic w, rest) => (Panic w, rest)
  | (Loop, rest) => (Loop, rest)
  end.
Definition pmap {A B} (f : A -> B) (p : parser A) : parser B := pbind p (fun a => pret (f a)).
(** a pure computation that may fail or panic, inside a parser *)
Definition plift {A} (x : res A) : parser A := fun bs => (x, bs).
(** [input.remaining()] *)
Definition premaining : parser N := fun bs => (Ok (blen bs), bs).
(** run a parser on [input.clone()] *)
Definition ppeek {A} (p : parser A) : parser A := fun bs => (fst (p bs), bs).

Notation "x <- p ;; q" := (pbind p (fun x => q)) (at level 61, p at next level, right associativity).
Notation "' x <- p ;; q" := (pbind p (fun x => q)) (at level 61, x pattern, p at next level, right associativity).
Notation "p ;;; q" := (pbind p (fun _ => q)) (at level 61, right associativity).

(** [for _ in 0..n { v.push(p()?) }] *)
Fixpoint prepeat {A} (n : nat) (p : parser A) : parser (list A) :=
  match n with
  | O => pret []
  | S n => a <- p ;; l <- prepeat n p ;; pret (a :: l)
  end.

(** [for x in xs { v.push(p(x)?) }] *)
Fixpoint pmapM {X A} (f : X -> parser A) (xs : list X) : parser (list A) :=
  match xs with
  | [] => pret []
  | x :: xs => a <- f x ;; l <- pmapM f xs ;; pret (a :: l)
  end.

(** ** Checked machine arithmetic *)
(** [a - b] on an unsigned type *)
Definition csub (a b : N) : res N := if a <? b then Panic PArith else Ok (a - b).
(** [a + b] on an unsigned type of [k] bits *)
Definition cadd (k a b : N) : res N := if 2 ^ k <=? a + b then Panic PArith else Ok (a + b).
(** [a * b] on an unsigned type of [k] bits *)
Definition cmul (k a b : N) : res N := if 2 ^ k <=? a * b then Panic PArith else Ok (a * b).

(** index into a slice *)
Definition bget (bs : bytes) (i : nat) : res byte :=
  match nth_error bs i with Some b => Ok b | None => Panic PIndex end.

(** byte string equality *)
Fixpoint beqb (a b : bytes) : bool :=
  match a, b with
  | [], [] => true
  | x :: a, y :: b => Byte.eqb x y && beqb a b
  | _, _ => false
  end.
