(** * Independent specification: the texts read as a TIME

    White space, then a whole number of hours with an optional sign, a colon, minutes, a colon,
    seconds, and optionally a point and one more number. *)
From Coq Require Import List NArith ZArith Arith Bool.
From Verif Require Import Model.Base Model.Time Spec.Wire Spec.Temporal Spec.ExtractSpec.
Import ListNotations.
Open Scope N_scope.

(** the characters Unicode calls White_Space (PropList.txt), in UTF-8 *)
Definition spaces : list bytes :=
  [ [n2b 0x09]; [n2b 0x0a]; [n2b 0x0b]; [n2b 0x0c]; [n2b 0x0d]; [n2b 0x20];       (* U+0009-000D, U+0020 *)
    [n2b 0xc2; n2b 0x85]; [n2b 0xc2; n2b 0xa0];                                    (* U+0085, U+00A0 *)
    [n2b 0xe1; n2b 0x9a; n2b 0x80];                                                (* U+1680 *)
    [n2b 0xe2; n2b 0x80; n2b 0x80]; [n2b 0xe2; n2b 0x80; n2b 0x81]; [n2b 0xe2; n2b 0x80; n2b 0x82];
    [n2b 0xe2; n2b 0x80; n2b 0x83]; [n2b 0xe2; n2b 0x80; n2b 0x84]; [n2b 0xe2; n2b 0x80; n2b 0x85];
    [n2b 0xe2; n2b 0x80; n2b 0x86]; [n2b 0xe2; n2b 0x80; n2b 0x87]; [n2b 0xe2; n2b 0x80; n2b 0x88];
    [n2b 0xe2; n2b 0x80; n2b 0x89]; [n2b 0xe2; n2b 0x80; n2b 0x8a];                (* U+2000-200A *)
    [n2b 0xe2; n2b 0x80; n2b 0xa8]; [n2b 0xe2; n2b 0x80; n2b 0xa9];                (* U+2028, U+2029 *)
    [n2b 0xe2; n2b 0x80; n2b 0xaf]; [n2b 0xe2; n2b 0x81; n2b 0x9f];                (* U+202F, U+205F *)
    [n2b 0xe3; n2b 0x80; n2b 0x80] ].                                              (* U+3000 *)
Definition white (ws : bytes) : Prop := exists cs, Forall (fun c => In c spaces) cs /\ ws = concat cs.

(** what stands behind the seconds: nothing, or a point and a number, which counts thousandths
    of a second if it is written with three characters and millionths otherwise *)
Definition fraction_text (micro : N) (s : bytes) : Prop :=
  s = [] /\ micro = 0 \/
  exists f n, s = n2b 46 :: f /\ unsigned_text n f /\ n < 2 ^ 32 /\
    (length f = 3%nat /\ micro = n * 1000 \/ length f <> 3%nat /\ micro = n).

(** the text of [t] with [hours] written in it; the hours count modulo [2 ^ 32] *)
Definition time_text_of (hours : Z) (t : my_time) (bs : bytes) : Prop :=
  exists ws h m s f,
    white ws /\ bs = ws ++ h ++ n2b 58 :: m ++ n2b 58 :: s ++ f /\
    signed_text hours h /\
    unsigned_text (t_minute t) m /\ t_minute t < 2 ^ 8 /\
    unsigned_text (t_second t) s /\ t_second t < 2 ^ 8 /\
    fraction_text (t_micro t) f /\
    (t_neg t = true <-> (hours < 0)%Z) /\
    t_hour t < 24 /\ t_days t * 24 + t_hour t = Z.abs_N hours mod 2 ^ 32.

(** the texts on which the absolute value of the hours cannot be formed *)
Definition lowest_hours_text (bs : bytes) : Prop :=
  exists ws h m s, white ws /\ bs = ws ++ h ++ n2b 58 :: m ++ n2b 58 :: s /\
    signed_text (- 2 ^ 63) h /\ ~ In (n2b 58) m /\ ~ In (n2b 58) s.
