(** * Independent specification: building blocks of MySQL wire formats

    Encoders for what a server sends and decoders for what a server reads,
    written from the MySQL protocol documentation. *)
From Coq Require Import List NArith ZArith Arith Bool.
From Verif Require Import Model.Base.
Import ListNotations.
Open Scope N_scope.

(** *** Encoders *)

(** [int<k>]: little endian *)
Fixpoint wle (k : nat) (n : N) : bytes :=
  match k with O => [] | S k => n2b (n mod 256) :: wle k (n / 256) end.
(** big endian *)
Definition wbe (k : nat) (n : N) : bytes := rev (wle k n).
(** two's complement, little / big endian *)
Definition wsle (k : nat) (z : Z) : bytes := wle k (Z.to_N (z mod 256 ^ Z.of_nat k)).
Definition wsbe (k : nat) (z : Z) : bytes := wbe k (Z.to_N (z mod 256 ^ Z.of_nat k)).

(** [int<lenenc>] *)
Definition wlenenc (n : N) : bytes :=
  if n <? 251 then [n2b n]
  else if n <? 2 ^ 16 then xfc :: wle 2 n
  else if n <? 2 ^ 24 then xfd :: wle 3 n
  else xfe :: wle 8 n.
(** [string<lenenc>] *)
Definition wlstr (s : bytes) : bytes := wlenenc (N.of_nat (length s)) ++ s.
(** [string<NUL>] *)
Definition wcstr (s : bytes) : bytes := s ++ [x00].
(** a string can be sent as [string<NUL>] *)
Definition no_nul (s : bytes) : Prop := ~ In x00 s.

(** *** Decoders (server side) *)
Definition dec (A : Type) := bytes -> option (A * bytes).
Definition dret {A} (a : A) : dec A := fun bs => Some (a, bs).
Definition dbind {A B} (d : dec A) (f : A -> dec B) : dec B := fun bs =>
  match d bs with Some (a, rest) => f a rest | None => None end.
Notation "x <-- d ;; f" := (dbind d (fun x => f)) (at level 61, d at next level, right associativity).
Definition dfail {A} : dec A := fun _ => None.

Fixpoint dbytes (k : nat) : dec bytes := fun bs =>
  match k, bs with
  | O, _ => Some ([], bs)
  | S k, b :: bs => match dbytes k bs with Some (a, r) => Some (b :: a, r) | None => None end
  | S _, [] => None
  end.
(** [int<k>] *)
Fixpoint dle (k : nat) : dec N := fun bs =>
  match k, bs with
  | O, _ => Some (0, bs)
  | S k, b :: bs => match dle k bs with Some (n, r) => Some (b2n b + 256 * n, r) | None => None end
  | S _, [] => None
  end.
(** [string<NUL>] *)
Fixpoint dcstr (bs : bytes) : option (bytes * bytes) :=
  match bs with
  | [] => None
  | b :: bs =>
      if Byte.eqb b x00 then Some ([], bs)
      else match dcstr bs with Some (a, r) => Some (b :: a, r) | None => None end
  end.
(** [int<lenenc>]; the NULL and error markers are not integers *)
Definition dlenenc : dec N :=
  n <-- dle 1 ;;
  if n <? 251 then dret n
  else if n =? 252 then dle 2
  else if n =? 253 then dle 3
  else if n =? 254 then dle 8
  else dfail.
(** [string<lenenc>] *)
Definition dlstr : dec bytes := n <-- dlenenc ;; dbytes (N.to_nat n).
(** [string<EOF>] *)
Definition drest : dec bytes := fun bs => Some (bs, []).
(** end of the message *)
Definition dend : dec unit := fun bs => match bs with [] => Some (tt, []) | _ => None end.
(** skip [k] bytes *)
Definition dskip (k : nat) : dec unit := _ <-- dbytes k ;; dret tt.

(** bit tests *)
Definition has_bit (flags bit : N) : bool := negb (N.land flags bit =? 0).
