(** * Model of mybin-core/src/bitmap.rs *)
From Verif Require Import Model.Base.
Open Scope N_scope.

(** bitmap.rs:3-8.  Indices are [usize]; slices are short lists, so indices are
    [nat].  Out of bounds is a panic. *)
Definition bm_index (bitmap : bytes) (idx : nat) : res bool :=
  let bucket := Nat.div idx 8 in
  let offset := Nat.modulo idx 8 in
  let bit := N.shiftl 1 (N.of_nat offset) in
  rbind (bget bitmap bucket) (fun b => Ok (N.land bit (b2n b) =? bit)).

(** write one element of a slice *)
Fixpoint bset (bs : bytes) (i : nat) (v : byte) : res bytes :=
  match bs, i with
  | [], _ => Panic PIndex
  | _ :: r, O => Ok (v :: r)
  | b :: r, S i => rbind (bset r i v) (fun r' => Ok (b :: r'))
  end.

(** bitmap.rs:11-22 *)
Definition bm_mark (bitmap : bytes) (idx : nat) (mark : bool) : res bytes :=
  let bucket := Nat.div idx 8 in
  let offset := Nat.modulo idx 8 in
  let bit := N.shiftl 1 (N.of_nat offset) in
  rbind (bget bitmap bucket) (fun b =>
    if mark then bset bitmap bucket (n2b (N.lor (b2n b) bit))
    else bset bitmap bucket (n2b (N.land (b2n b) (N.lxor 0xff bit)))).

(** bitmap.rs:61-70: one call of [next] from position [idx] *)
Definition bm_next (bits : bytes) (idx : nat) : res (option bool) :=
  if (length bits * 8 =? idx)%nat then Ok None
  else
    let bucket := Nat.div idx 8 in
    let offset := Nat.modulo idx 8 in
    rbind (bget bits bucket) (fun b =>
      Ok (Some (negb (N.land (b2n b) (N.shiftl 1 (N.of_nat offset)) =? 0)))).

(** bitmap.rs:25-27 + repeated [next]: all values [to_iter(bits, offset)] yields.
    An iterator started beyond the end never meets its stop condition and
    indexes out of bounds on the first call. [fuel] bounds the number of calls. *)
Fixpoint bm_iter_from (fuel : nat) (bits : bytes) (idx : nat) : res (list bool) :=
  match fuel with
  | O => Loop
  | S fuel =>
      rbind (bm_next bits idx) (fun o =>
        match o with
        | None => Ok []
        | Some b => rbind (bm_iter_from fuel bits (S idx)) (fun l => Ok (b :: l))
        end)
  end.
Definition bm_to_iter (bits : bytes) (offset : nat) : res (list bool) :=
  bm_iter_from (length bits * 8 + 1) bits offset.

(** [*bm.last_mut().unwrap() |= 1 << (offset & 7)] *)
Fixpoint or_last (bm : bytes) (bit : N) : bytes :=
  match bm with
  | [] => []
  | [b] => [n2b (N.lor (b2n b) bit)]
  | b :: r => b :: or_last r bit
  end.

(** the loop of bitmap.rs:41-49 *)
Fixpoint bm_from_loop (bools : list bool) (offset : nat) (bm : bytes) : bytes :=
  match bools with
  | [] => bm
  | b :: bools =>
      let bm := if (Nat.div offset 8 =? length bm)%nat then bm ++ [x00] else bm in
      let bm := if b then or_last bm (N.shiftl 1 (N.of_nat (Nat.modulo offset 8))) else bm in
      bm_from_loop bools (S offset) bm
  end.

(** bitmap.rs:33-51 *)
Definition bm_from_iter (bools : list bool) (offset : nat) : bytes :=
  bm_from_loop bools offset (repeat x00 (Nat.div offset 8 + 1)).
