(** * SHA-1 and SHA-256 (FIPS 180-4), to instantiate the abstract digests *)
From Coq Require Import List NArith Arith Bool.
From Verif Require Import Model.Base.
Import ListNotations.
Open Scope N_scope.

Definition w32 (n : N) : N := N.land n 0xffffffff.
Definition rotl (k x : N) : N := w32 (N.lor (N.shiftl x k) (N.shiftr x (32 - k))).
Definition rotr (k x : N) : N := rotl (32 - k) x.
Definition not32 (x : N) : N := N.lxor x 0xffffffff.
Definition add32 (a b : N) : N := w32 (a + b).

Fixpoint be_word (l : bytes) (acc : N) : N := match l with [] => acc | b :: l => be_word l (acc * 256 + Byte.to_N b) end.
Fixpoint words (fuel : nat) (l : bytes) : list N :=
  match fuel, l with
  | S fuel, _ :: _ => be_word (firstn 4 l) 0 :: words fuel (skipn 4 l)
  | _, _ => []
  end.
Fixpoint blocks (fuel : nat) (l : list N) : list (list N) :=
  match fuel, l with
  | S fuel, _ :: _ => firstn 16 l :: blocks fuel (skipn 16 l)
  | _, _ => []
  end.
Definition word_be (n : N) : bytes := [n2b (N.shiftr n 24); n2b (N.shiftr n 16); n2b (N.shiftr n 8); n2b n].

Definition sha_pad (m : bytes) : bytes :=
  let l := N.of_nat (length m) in
  let z := (119 - l mod 64) mod 64 in
  m ++ x80 :: repeat x00 (N.to_nat z) ++ word_be (N.shiftr (8 * l) 32) ++ word_be (w32 (8 * l)).
Definition sha_blocks (m : bytes) : list (list N) :=
  let p := sha_pad m in blocks (length p) (words (length p) p).

(** schedule kept reversed: the head is the latest word *)
Definition nth_w (l : list N) (i : nat) : N := nth i l 0.

(** SHA-1 *)
Fixpoint sha1_sched (k : nat) (w : list N) : list N :=
  match k with
  | O => w
  | S k => sha1_sched k (rotl 1 (N.lxor (N.lxor (nth_w w 2) (nth_w w 7)) (N.lxor (nth_w w 13) (nth_w w 15))) :: w)
  end.
Definition st5 : Type := N * N * N * N * N.
Definition sha1_step (s : st5) (tw : nat * N) : st5 :=
  let '(a, b, c, d, e) := s in
  let '(t, w) := tw in
  let '(f, k) :=
    if (t <? 20)%nat then (N.lxor (N.land b c) (N.land (not32 b) d), 0x5a827999)
    else if (t <? 40)%nat then (N.lxor b (N.lxor c d), 0x6ed9eba1)
    else if (t <? 60)%nat then (N.lxor (N.land b c) (N.lxor (N.land b d) (N.land c d)), 0x8f1bbcdc)
    else (N.lxor b (N.lxor c d), 0xca62c1d6) in
  (w32 (rotl 5 a + f + e + k + w), a, rotl 30 b, c, d).
Definition sha1_block (s : st5) (blk : list N) : st5 :=
  let w := rev (sha1_sched 64 (rev blk)) in
  let '(a, b, c, d, e) := s in
  let '(a', b', c', d', e') := fold_left sha1_step (combine (seq 0 80) w) s in
  (add32 a a', add32 b b', add32 c c', add32 d d', add32 e e').
Definition sha1 (m : bytes) : bytes :=
  let '(a, b, c, d, e) :=
    fold_left sha1_block (sha_blocks m) (0x67452301, 0xefcdab89, 0x98badcfe, 0x10325476, 0xc3d2e1f0) in
  word_be a ++ word_be b ++ word_be c ++ word_be d ++ word_be e.

(** SHA-256 *)
Definition sha256_k : list N :=
 [0x428a2f98;0x71374491;0xb5c0fbcf;0xe9b5dba5;0x3956c25b;0x59f111f1;0x923f82a4;0xab1c5ed5;
  0xd807aa98;0x12835b01;0x243185be;0x550c7dc3;0x72be5d74;0x80deb1fe;0x9bdc06a7;0xc19bf174;
  0xe49b69c1;0xefbe4786;0x0fc19dc6;0x240ca1cc;0x2de92c6f;0x4a7484aa;0x5cb0a9dc;0x76f988da;
  0x983e5152;0xa831c66d;0xb00327c8;0xbf597fc7;0xc6e00bf3;0xd5a79147;0x06ca6351;0x14292967;
  0x27b70a85;0x2e1b2138;0x4d2c6dfc;0x53380d13;0x650a7354;0x766a0abb;0x81c2c92e;0x92722c85;
  0xa2bfe8a1;0xa81a664b;0xc24b8b70;0xc76c51a3;0xd192e819;0xd6990624;0xf40e3585;0x106aa070;
  0x19a4c116;0x1e376c08;0x2748774c;0x34b0bcb5;0x391c0cb3;0x4ed8aa4a;0x5b9cca4f;0x682e6ff3;
  0x748f82ee;0x78a5636f;0x84c87814;0x8cc70208;0x90befffa;0xa4506ceb;0xbef9a3f7;0xc67178f2].
Fixpoint sha256_sched (k : nat) (w : list N) : list N :=
  match k with
  | O => w
  | S k =>
      let x15 := nth_w w 14 in let x2 := nth_w w 1 in
      let s0 := N.lxor (rotr 7 x15) (N.lxor (rotr 18 x15) (N.shiftr x15 3)) in
      let s1 := N.lxor (rotr 17 x2) (N.lxor (rotr 19 x2) (N.shiftr x2 10)) in
      sha256_sched k (w32 (nth_w w 15 + s0 + nth_w w 6 + s1) :: w)
  end.
Definition st8 : Type := N * N * N * N * N * N * N * N.
Definition sha256_step (s : st8) (kw : N * N) : st8 :=
  let '(a, b, c, d, e, f, g, h) := s in
  let '(k, w) := kw in
  let s1 := N.lxor (rotr 6 e) (N.lxor (rotr 11 e) (rotr 25 e)) in
  let ch := N.lxor (N.land e f) (N.land (not32 e) g) in
  let t1 := h + s1 + ch + k + w in
  let s0 := N.lxor (rotr 2 a) (N.lxor (rotr 13 a) (rotr 22 a)) in
  let maj := N.lxor (N.land a b) (N.lxor (N.land a c) (N.land b c)) in
  (w32 (t1 + s0 + maj), a, b, c, w32 (d + t1), e, f, g).
Definition sha256_block (s : st8) (blk : list N) : st8 :=
  let w := rev (sha256_sched 48 (rev blk)) in
  let '(a, b, c, d, e, f, g, h) := s in
  let '(a', b', c', d', e', f', g', h') := fold_left sha256_step (combine sha256_k w) s in
  (add32 a a', add32 b b', add32 c c', add32 d d', add32 e e', add32 f f', add32 g g', add32 h h').
Definition sha256 (m : bytes) : bytes :=
  let '(a, b, c, d, e, f, g, h) := fold_left sha256_block (sha_blocks m)
    (0x6a09e667, 0xbb67ae85, 0x3c6ef372, 0xa54ff53a, 0x510e527f, 0x9b05688c, 0x1f83d9ab, 0x5be0cd19) in
  word_be a ++ word_be b ++ word_be c ++ word_be d ++ word_be e ++ word_be f ++ word_be g ++ word_be h.

Definition hex_val (l : bytes) : N := be_word l 0.
(** test vectors: "abc" and the empty string *)
Example sha1_abc : hex_val (sha1 [x61; x62; x63]) = 0xa9993e364706816aba3e25717850c26c9cd0d89d.
Proof. vm_compute. reflexivity. Qed.
Example sha1_empty : hex_val (sha1 []) = 0xda39a3ee5e6b4b0d3255bfef95601890afd80709.
Proof. vm_compute. reflexivity. Qed.
Example sha256_abc : hex_val (sha256 [x61; x62; x63]) = 0xba7816bf8f01cfea414140de5dae2223b00361a396177a9cb410ff61f20015ad.
Proof. vm_compute. reflexivity. Qed.
Example sha256_empty : hex_val (sha256 []) = 0xe3b0c44298fc1c149afbf4c8996fb92427ae41e4649b934ca495991b7852b855.
Proof. vm_compute. reflexivity. Qed.
