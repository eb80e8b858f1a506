(** * Specification: UTF-8 (RFC 3629)

    A text is a sequence of characters; a character is a Unicode scalar value, any code point but the
    surrogates.  This file does not mention the model. *)
From Coq Require Import List NArith.
From Verif Require Import Model.Base.
Import ListNotations.
Open Scope N_scope.

Definition scalar (n : N) : Prop := n < 0xD800 \/ 0xE000 <= n < 0x110000.
(** RFC 3629, section 3: the table of encodings, by the range of the character *)
Definition utf8 (n : N) : bytes :=
  map n2b (if n <? 0x80 then [n]
           else if n <? 0x800 then [0xC0 + n / 64; 0x80 + n mod 64]
           else if n <? 0x10000 then [0xE0 + n / 4096; 0x80 + n / 64 mod 64; 0x80 + n mod 64]
           else [0xF0 + n / 262144; 0x80 + n / 4096 mod 64; 0x80 + n / 64 mod 64; 0x80 + n mod 64]).
Definition utf8_text (text : list N) : bytes := concat (map utf8 text).
