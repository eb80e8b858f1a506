(** * Independent specification: MySQL packets on a byte stream

    https://dev.mysql.com/doc/internals/en/mysql-packet.html : a packet is a 3
    byte little endian payload length, a sequence byte and the payload.  A payload
    of 2^24-1 bytes or more is split: full packets, then a shorter (possibly
    empty) one. *)
From Coq Require Import List NArith Arith.
From Verif Require Import Model.Base Model.Conn Spec.Nums.
Import ListNotations.
Open Scope N_scope.

Definition full : N := 2 ^ 24 - 1.

(** one packet on the wire *)
Definition packet_wire (seq : byte) (payload w : bytes) : Prop :=
  exists l, is_le 3 (N.of_nat (length payload)) l /\ w = l ++ seq :: payload.

(** [w] is message [p] as a series of packets with sequence bytes [seqs] *)
Inductive message_wire : list byte -> bytes -> bytes -> Prop :=
| mw_last s p w : N.of_nat (length p) < full -> packet_wire s p w -> message_wire [s] p w
| mw_more s p w seqs p' w' : N.of_nat (length p) = full -> packet_wire s p w ->
    message_wire seqs p' w' -> message_wire (s :: seqs) (p ++ p') (w ++ w').

(** a back to back sequence of messages *)
Inductive messages_wire : list bytes -> bytes -> Prop :=
| msw_nil : messages_wire [] []
| msw_cons p w ps ws seqs : message_wire seqs p w -> messages_wire ps ws ->
    messages_wire (p :: ps) (w ++ ws).

(** [n] consecutive sequence numbers modulo 256 *)
Fixpoint consecutive (start : N) (seqs : list byte) : Prop :=
  match seqs with
  | [] => True
  | s :: seqs => Byte.to_N s = start mod 256 /\ consecutive (start + 1) seqs
  end.

(** The bytes a read schedule delivers before the stream ends or fails. *)
Fixpoint delivered (s : list rpoll) : bytes :=
  match s with
  | [] => []
  | RPending :: s => delivered s
  | RFail :: _ => []
  | RData [] :: _ => []
  | RData c :: s => c ++ delivered s
  end.

(** A write schedule without failures. *)
Fixpoint accepting (s : list wpoll) : Prop :=
  match s with
  | [] => True
  | WPending :: s => accepting s
  | WFail :: _ => False
  | WAccept n :: s => n <> O /\ accepting s
  end.

(** What survives a receive: everything but the read side and the packet number *)
Definition same_but_read (c c' : conn) : Prop :=
  c_ws c' = c_ws c /\ c_out c' = c_out c /\ c_cap c' = c_cap c /\ c_status c' = c_status c.

(** the number following [s] *)
Definition next_seq (s : byte) : N := (Byte.to_N s + 1) mod 256.

(** What survives a send: everything but the write side and the packet number *)
Definition same_but_write (c c' : conn) : Prop :=
  c_rd c' = c_rd c /\ c_cap c' = c_cap c /\ c_status c' = c_status c.

(** number of packets a payload of [n] bytes needs *)
Definition packet_count (n : N) : N := n / full + 1.

(** receiving several messages *)
Fixpoint recv_n (n : nat) : io (list bytes) :=
  match n with
  | O => iret []
  | S n => m <~ recv_msg ;; l <~ recv_n n ;; iret (m :: l)
  end.
