(** * Model of the parts of Rust's [core::fmt], [str] and [FromStr] the code relies on *)
From Verif Require Import Model.Base.
Open Scope N_scope.

(** decimal digits of [n], most significant first, in front of [acc] *)
Fixpoint dec_digits (fuel : nat) (n : N) (acc : bytes) : bytes :=
  match fuel with
  | O => acc
  | S fuel =>
      let acc := n2b (48 + n mod 10) :: acc in
      if n / 10 =? 0 then acc else dec_digits fuel (n / 10) acc
  end.
(** [format!("{}", n)] for an unsigned integer *)
Definition fmt_n (n : N) : bytes := dec_digits (S (N.size_nat n)) n [].
(** [format!("{}", z)] for a signed integer *)
Definition fmt_z (z : Z) : bytes :=
  if (z <? 0)%Z then n2b 45 :: fmt_n (Z.abs_N z) else fmt_n (Z.abs_N z).
(** [format!("{:0k}", n)] for an unsigned integer *)
Definition fmt_pad (k : nat) (n : N) : bytes :=
  let s := fmt_n n in repeat (n2b 48) (k - length s) ++ s.
(** [format!("{:0k}", z)] for a signed integer: the sign counts towards the width *)
Definition fmt_padz (k : nat) (z : Z) : bytes :=
  if (z <? 0)%Z then n2b 45 :: fmt_pad (k - 1) (Z.abs_N z) else fmt_pad k (Z.abs_N z).

(** lower case hexadecimal digits of a byte, [hex::encode_to_slice] *)
Definition hex_digit (n : N) : byte := if n <? 10 then n2b (48 + n) else n2b (87 + n).
Definition hex_encode (bs : bytes) : bytes :=
  flat_map (fun b => [hex_digit (b2n b / 16); hex_digit (b2n b mod 16)]) bs.

(** ** [str::parse] for integers: an optional sign ([-] only for signed types), then at
    least one decimal digit, within the range of the type. *)
Definition is_digit (b : byte) : bool := (48 <=? b2n b) && (b2n b <=? 57).
Fixpoint parse_digits (bs : bytes) (acc : N) : option N :=
  match bs with
  | [] => Some acc
  | b :: bs => if is_digit b then parse_digits bs (acc * 10 + (b2n b - 48)) else None
  end.
Definition parse_nat (bs : bytes) : option N :=
  match bs with [] => None | _ => parse_digits bs 0 end.
(** [s.parse::<uK>()] *)
Definition parse_u (k : N) (s : bytes) : res N :=
  let digits := match s with b :: r => if b2n b =? 43 then r else s | [] => [] end in
  match parse_nat digits with
  | Some n => if n <? 2 ^ k then Ok n else Err EParseValue
  | None => Err EParseValue
  end.
(** [s.parse::<iK>()] *)
Definition parse_i (k : N) (s : bytes) : res Z :=
  let '(neg, digits) :=
    match s with
    | b :: r => if b2n b =? 43 then (false, r) else if b2n b =? 45 then (true, r) else (false, s)
    | [] => (false, [])
    end in
  match parse_nat digits with
  | Some n =>
      if neg then (if n <=? 2 ^ (k - 1) then Ok (- Z.of_N n)%Z else Err EParseValue)
      else (if n <? 2 ^ (k - 1) then Ok (Z.of_N n) else Err EParseValue)
  | None => Err EParseValue
  end.

(** [s.split(c)] for an ASCII character [c]: never empty *)
Fixpoint split_on (c : byte) (s : bytes) : list bytes :=
  match s with
  | [] => [[]]
  | b :: s =>
      if Byte.eqb b c then [] :: split_on c s
      else match split_on c s with
           | p :: ps => (b :: p) :: ps
           | [] => [[b]] (* unreachable *)
           end
  end.

(** [str::trim_start]: Unicode White_Space characters in UTF-8 *)
Fixpoint trim_start (s : bytes) : bytes :=
  match s with
  | b :: s1 =>
      if (9 <=? b2n b) && (b2n b <=? 13) || (b2n b =? 32) then trim_start s1
      else match s1 with
           | c :: s2 =>
               if (b2n b =? 0xc2) && ((b2n c =? 0x85) || (b2n c =? 0xa0)) then trim_start s2
               else match s2 with
                    | d :: s3 =>
                        if ((b2n b =? 0xe1) && (b2n c =? 0x9a) && (b2n d =? 0x80))
                           || ((b2n b =? 0xe2) && (b2n c =? 0x80) &&
                               ((b2n d <=? 0x8a) || (b2n d =? 0xa8) || (b2n d =? 0xa9) || (b2n d =? 0xaf)))
                           || ((b2n b =? 0xe2) && (b2n c =? 0x81) && (b2n d =? 0x9f))
                           || ((b2n b =? 0xe3) && (b2n c =? 0x80) && (b2n d =? 0x80))
                        then trim_start s3 else s
                    | [] => s
                    end
           | [] => s
           end
  | [] => []
  end.
