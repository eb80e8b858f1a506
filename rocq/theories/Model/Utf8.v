(** * UTF-8 validation ([std::str::from_utf8] / [String::from_utf8])

    External standard library behaviour, modelled from the Rust documentation
    (shortest form, no surrogates, at most U+10FFFF). *)
From Verif Require Import Model.Base.
Open Scope N_scope.

Definition in_range (lo hi : N) (b : byte) : bool := (lo <=? b2n b) && (b2n b <=? hi).
Definition is_cont (b : byte) : bool := in_range 0x80 0xbf b.

Fixpoint utf8_valid (bs : bytes) : bool :=
  match bs with
  | [] => true
  | b0 :: r0 =>
    if b2n b0 <? 0x80 then utf8_valid r0
    else match r0 with
    | [] => false
    | b1 :: r1 =>
      if in_range 0xc2 0xdf b0 then is_cont b1 && utf8_valid r1
      else match r1 with
      | [] => false
      | b2 :: r2 =>
        if in_range 0xe0 0xef b0 then
          (if b2n b0 =? 0xe0 then in_range 0xa0 0xbf b1
           else if b2n b0 =? 0xed then in_range 0x80 0x9f b1
           else is_cont b1) && is_cont b2 && utf8_valid r2
        else match r2 with
        | [] => false
        | b3 :: r3 =>
          if in_range 0xf0 0xf4 b0 then
            (if b2n b0 =? 0xf0 then in_range 0x90 0xbf b1
             else if b2n b0 =? 0xf4 then in_range 0x80 0x8f b1
             else is_cont b1) && is_cont b2 && is_cont b3 && utf8_valid r3
          else false
        end
      end
    end
  end.

(** [String::from_utf8(bs)?] *)
Definition from_utf8 (bs : bytes) : res bytes := if utf8_valid bs then Ok bs else Err EUtf8.
