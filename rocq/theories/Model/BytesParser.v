(** * Model of bytes-parser/src/lib.rs *)
From Verif Require Import Model.Base.
Open Scope N_scope.

(** ** External primitives of the [bytes] crate *)

(** [get_uN_le] / [get_uN] and [to_le_bytes]: the crate's documented
    little / big endian conversions. *)
Definition get_le (bs : bytes) : N := fold_right (fun b acc => b2n b + N.shiftl acc 8) 0 bs.
Definition get_be (bs : bytes) : N := fold_left (fun acc b => N.shiftl acc 8 + b2n b) bs 0.
Fixpoint to_le_bytes (k : nat) (n : N) : bytes :=
  match k with
  | O => []
  | S k => n2b n :: to_le_bytes k (N.shiftr n 8)
  end.

(** ** Readers (trait ReadBytesExt, impl for Bytes) *)

(** Common guard of all fixed-width readers, e.g. lib.rs:131-136:
    [if self.remaining() < k { return Err(InputIncomplete(_, Size(k - remaining))) }]
    followed by taking [k] bytes. *)
Definition take (k : nat) : parser bytes := fun bs =>
  if (length bs <? k)%nat
  then (Err (EIncomplete (Some (N.of_nat (k - length bs)))), bs)
  else (Ok (firstn k bs), skipn k bs).

(** lib.rs:123-128 *)
Definition read_u8 : parser N := fun bs =>
  match bs with
  | [] => (Err (EIncomplete (Some 1)), bs)
  | b :: rest => (Ok (b2n b), rest)
  end.
(** same read returning the byte itself (used where the value stays a [u8] tag) *)
Definition read_byte : parser byte := fun bs =>
  match bs with
  | [] => (Err (EIncomplete (Some 1)), bs)
  | b :: rest => (Ok b, rest)
  end.
(** lib.rs:31-33 *)
Definition read_i8 : parser Z := pmap (to_signed 8) read_u8.
(** lib.rs:130-138 *)
Definition read_le_u16 : parser N := pmap get_le (take 2).
(** lib.rs:37-39 *)
Definition read_le_i16 : parser Z := pmap (to_signed 16) read_le_u16.
(** lib.rs:140-148 *)
Definition read_be_u16 : parser N := pmap get_be (take 2).
(** lib.rs:43-45 *)
Definition read_be_i16 : parser Z := pmap (to_signed 16) read_be_u16.

(** lib.rs:150-161: [bs[0] + (bs[1] << 8) + (bs[2] << 16)] *)
Definition read_le_u24 : parser N := pmap (fun bs =>
  match bs with
  | [b0; b1; b2] => b2n b0 + N.shiftl (b2n b1) 8 + N.shiftl (b2n b2) 16
  | _ => 0 (* unreachable: take 3 returns 3 bytes *)
  end) (take 3).
(** lib.rs:163-174 *)
Definition read_be_u24 : parser N := pmap (fun bs =>
  match bs with
  | [b0; b1; b2] => b2n b2 + N.shiftl (b2n b1) 8 + N.shiftl (b2n b0) 16
  | _ => 0
  end) (take 3).
(** the sign extension closure of lib.rs:50-56 and 62-68 *)
Definition sext24 (n : N) : Z :=
  if negb (N.land n 0x800000 =? 0) then to_signed 32 (N.lor n 0xff000000) else to_signed 32 n.
(** lib.rs:49-57 *)
Definition read_le_i24 : parser Z := pmap sext24 read_le_u24.
(** lib.rs:61-69 (calls read_le_u24, as in the source) *)
Definition read_be_i24 : parser Z := pmap sext24 read_le_u24.
(** lib.rs:176-184 *)
Definition read_le_u32 : parser N := pmap get_le (take 4).
(** lib.rs:73-75 *)
Definition read_le_i32 : parser Z := pmap (to_signed 32) read_le_u32.
(** lib.rs:186-194 *)
Definition read_be_u32 : parser N := pmap get_be (take 4).
(** lib.rs:79-81 *)
Definition read_be_i32 : parser Z := pmap (to_signed 32) read_be_u32.
(** lib.rs:196-206 *)
Definition read_be_u40 : parser N := fun bs =>
  if (length bs <? 5)%nat
  then (Err (EIncomplete (Some (N.of_nat (5 - length bs)))), bs)
  else (n4 <- read_be_u32 ;; n1 <- read_u8 ;; pret (N.shiftl n4 8 + n1)) bs.
(** lib.rs:85-87 *)
Definition read_be_i40 : parser Z := pmap (to_signed 64) read_be_u40.
(** lib.rs:208-224 *)
Definition read_le_u48 : parser N := pmap (fun bs =>
  match bs with
  | [b0; b1; b2; b3; b4; b5] =>
      b2n b0 + N.shiftl (b2n b1) 8 + N.shiftl (b2n b2) 16
      + N.shiftl (b2n b3) 24 + N.shiftl (b2n b4) 32 + N.shiftl (b2n b5) 40
  | _ => 0
  end) (take 6).
(** lib.rs:91-99 *)
Definition read_le_i48 : parser Z := pmap (fun n =>
  if negb (N.land n 0x800000000000 =? 0)
  then to_signed 64 (N.lor n 0xffff000000000000) else to_signed 64 n) read_le_u48.
(** lib.rs:226-234 *)
Definition read_le_u64 : parser N := pmap get_le (take 8).
(** lib.rs:103-105 *)
Definition read_le_i64 : parser Z := pmap (to_signed 64) read_le_u64.
(** lib.rs:236-244 *)
Definition read_le_u128 : parser N := pmap get_le (take 16).
(** lib.rs:109-111 *)
Definition read_le_i128 : parser Z := pmap (to_signed 128) read_le_u128.

(** Floats are represented by their IEEE bit pattern.
    lib.rs:246-254 *)
Definition read_le_f32 : parser N := pmap get_le (take 4).
(** lib.rs:256-264: the error path computes [4 - remaining] although 8 bytes are
    needed, which overflows for 5, 6 or 7 remaining bytes. *)
Definition read_le_f64 : parser N := fun bs =>
  if (length bs <? 8)%nat
  then (rbind (csub 4 (blen bs)) (fun k => Err (EIncomplete (Some k))), bs)
  else (pmap get_le (take 8)) bs.

(** lib.rs:266-274 *)
Definition read_len (len : N) : parser bytes := fun bs =>
  if blen bs <? len
  then (Err (EIncomplete (Some (len - blen bs))), bs)
  else (Ok (firstn (N.to_nat len) bs), skipn (N.to_nat len) bs).

(** [iter().position(|&x| x == b)] *)
Fixpoint position (b : byte) (bs : bytes) : option nat :=
  match bs with
  | [] => None
  | x :: bs => if Byte.eqb x b then Some O else option_map S (position b bs)
  end.

(** lib.rs:276-289 *)
Definition read_until (b : byte) (inclusive : bool) : parser bytes := fun bs =>
  match position b bs with
  | Some pos =>
      let end_ := S pos in
      if inclusive then (Ok (firstn end_ bs), skipn end_ bs)
      else (Ok (firstn (end_ - 1) bs), skipn 1 (skipn (end_ - 1) bs))
  | None => (Err (EIncomplete None), bs)
  end.

(** [input.split_to(input.remaining())] and similar "take the rest" idioms *)
Definition read_rest : parser bytes := fun bs => (Ok bs, []).

(** ** Writers (trait WriteBytesExt, impl for BytesMut): the bytes appended. *)

(** lib.rs:357-360 *)
Definition write_u8 (n : N) : bytes := [n2b n].
(** lib.rs:362-365 *)
Definition write_i8 (z : Z) : bytes := write_u8 (to_unsigned 8 z).
(** lib.rs:367-370 *)
Definition write_le_u16 (n : N) : bytes := to_le_bytes 2 n.
(** lib.rs:372-375 *)
Definition write_le_i16 (z : Z) : bytes := to_le_bytes 2 (to_unsigned 16 z).
(** lib.rs:377-380: the low three of the four little endian bytes *)
Definition write_le_u24 (n : N) : bytes := firstn 3 (to_le_bytes 4 n).
(** lib.rs:382-390 *)
Definition write_le_i24 (z : Z) : bytes :=
  let n := if (z <? 0)%Z then N.lor (to_unsigned 32 z) 0xff800000 else to_unsigned 32 z in
  firstn 3 (to_le_bytes 4 n).
(** lib.rs:392-395 *)
Definition write_le_u32 (n : N) : bytes := to_le_bytes 4 n.
(** lib.rs:397-400 *)
Definition write_le_i32 (z : Z) : bytes := to_le_bytes 4 (to_unsigned 32 z).
(** lib.rs:402-405 *)
Definition write_le_u48 (n : N) : bytes := firstn 6 (to_le_bytes 8 n).
(** lib.rs:407-415 *)
Definition write_le_i48 (z : Z) : bytes :=
  let n := if (z <? 0)%Z then N.lor (to_unsigned 64 z) 0xffff800000000000 else to_unsigned 64 z in
  firstn 6 (to_le_bytes 8 n).
(** lib.rs:417-420 *)
Definition write_le_u64 (n : N) : bytes := to_le_bytes 8 n.
(** lib.rs:422-425 *)
Definition write_le_i64 (z : Z) : bytes := to_le_bytes 8 (to_unsigned 64 z).
(** lib.rs:427-430 *)
Definition write_le_u128 (n : N) : bytes := to_le_bytes 16 n.
(** lib.rs:432-435 *)
Definition write_le_i128 (z : Z) : bytes := to_le_bytes 16 (to_unsigned 128 z).
(** lib.rs:437-440, bit pattern *)
Definition write_le_f32 (n : N) : bytes := to_le_bytes 4 n.
(** lib.rs:442-445, bit pattern *)
Definition write_le_f64 (n : N) : bytes := to_le_bytes 8 n.
(** lib.rs:447-452 for [&[u8]] and [Bytes] (lib.rs:296-310) *)
Definition write_bytes (bs : bytes) : bytes := bs.
