(** * Specification: transports that stop taking output *)
From Coq Require Import List NArith.
From Verif Require Import Model.Base Model.Conn Spec.Nums Spec.Framing.
Import ListNotations.
Open Scope N_scope.

(** an answer to a write that makes the write fail: an error, or no byte taken *)
Definition refuses (p : wpoll) : Prop := p = WFail \/ p = WAccept 0.
(** the transport takes bytes for a while, in whatever portions and after whatever waiting, and then fails
    and keeps failing.  Three failing answers suffice: no program gets to ask a fourth time. *)
Definition fails_after (ws : list wpoll) (c : conn) : Prop :=
  accepting ws /\ exists f1 f2 f3 rest, refuses f1 /\ refuses f2 /\ refuses f3 /\ c_ws c = ws ++ f1 :: f2 :: f3 :: rest.
(** the same connection with a transport that takes everything *)
Definition healthy (c : conn) : conn := mk_conn (c_rd c) [] (c_out c) (c_cap c) (c_status c) (c_pkt_nr c).
(** the message that closes statement [id], https://dev.mysql.com/doc/internals/en/com-stmt-close.html :
    the command byte 0x19 and the 4-byte id; it is the first packet of its command *)
Definition close_packet (id : N) (w : bytes) : Prop := exists i, is_le 4 id i /\ packet_wire x00 (x19 :: i) w.
