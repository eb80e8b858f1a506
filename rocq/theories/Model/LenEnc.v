(** * Model of bytes-parser/src/my.rs: length encoded integers and strings *)
From Verif Require Import Model.Base Model.BytesParser.
Open Scope N_scope.

(** my.rs:59-66 *)
Inductive len_enc_int : Type :=
| LeiNull
| LeiErr
| Len1 (n : N)   (* u8 *)
| Len3 (n : N)   (* u16 *)
| Len4 (n : N)   (* u32 *)
| Len9 (n : N).  (* u64 *)

(** my.rs:13-35 *)
Definition read_len_enc_int : parser len_enc_int := fun bs =>
  match bs with
  | [] => (Err (EIncomplete None), bs)
  | _ =>
    (len <- read_u8 ;;
     if len =? 0xfb then pret LeiNull
     else if len =? 0xfc then pmap Len3 read_le_u16
     else if len =? 0xfd then pmap Len4 read_le_u24
     else if len =? 0xfe then pmap Len9 read_le_u64
     else if len =? 0xff then pret LeiErr
     else pret (Len1 len)) bs
  end.

(** my.rs:69-77 *)
Definition lei_to_u64 (l : len_enc_int) : option N :=
  match l with
  | Len1 n | Len3 n | Len4 n | Len9 n => Some n
  | _ => None
  end.

(** my.rs:79-87: [*n as u32] truncates in the Len9 case *)
Definition lei_to_u32 (l : len_enc_int) : option N :=
  match l with
  | Len1 n | Len3 n | Len4 n => Some n
  | Len9 n => Some (trunc 32 n)
  | _ => None
  end.

(** my.rs:96-129 *)
Definition lei_write (l : len_enc_int) : bytes :=
  match l with
  | LeiNull => [xfb]
  | LeiErr => [xff]
  | Len1 n => [n2b n]
  | Len3 n => xfc :: to_le_bytes 2 n
  | Len4 n => xfd :: firstn 3 (to_le_bytes 4 n)
  | Len9 n => xfe :: to_le_bytes 8 n
  end.

(** my.rs:132-144; u8/u16/u32 (146-165) widen and call this *)
Definition lei_from (src : N) : len_enc_int :=
  if src <=? 0xfb then Len1 src
  else if src <=? 0xffff then Len3 src
  else if src <=? 0xffffff then Len4 src
  else Len9 src.

(** my.rs:168-172 *)
Inductive len_enc_str : Type :=
| LesNull
| LesErr
| LesBytes (bs : bytes).

(** my.rs:37-54 *)
Definition read_len_enc_str : parser len_enc_str :=
  lei <- read_len_enc_int ;;
  match lei with
  | LeiErr => pret LesErr
  | LeiNull => pret LesNull
  | _ =>
      match lei_to_u64 lei with
      | None => ppanic PUnwrap
      | Some len => pmap LesBytes (read_len len)
      end
  end.

(** my.rs:226-247 *)
Definition les_write (s : len_enc_str) : bytes :=
  match s with
  | LesNull => [xfb]
  | LesErr => [xff]
  | LesBytes bs => lei_write (lei_from (blen bs)) ++ bs
  end.

(** my.rs:189-201 *)
Definition les_bytes (s : len_enc_str) : option bytes :=
  match s with LesBytes bs => Some bs | _ => None end.
