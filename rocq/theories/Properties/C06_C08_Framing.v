(** C06, C07, C08: packet framing.  Vocabulary: Spec/Framing.v. The transport's
    behaviour (chunking, pending polls, partial writes) is the arbitrary schedule
    inside the connections [c] and [d]. *)
From Verif Require Import Model.Base Model.Conn Spec.Nums Spec.Framing Proofs.ConnProofs.
Open Scope N_scope.

(** C06: what one side sends the other side receives, and nothing more is read.
    [checks]: the build has overflow checks; then the sequence number must not
    reach 256 within this message (see C07). *)
Theorem C06_send_recv : forall c msg (reset : bool) checks d,
  accepting (c_ws c) -> let start := if reset then 0 else c_pkt_nr c in
  start < 256 -> checks = false \/ start + packet_count (blen msg) <= 255 ->
  exists w c', send_msg checks msg reset c = (Ok tt, c') /\ c_out c' = c_out c ++ w /\
    forall rest, delivered (c_rd d) = w ++ rest ->
      exists d', recv_msg d = (Ok msg, d') /\ delivered (c_rd d') = rest /\
                 c_pkt_nr d' = c_pkt_nr c'.
Proof. exact send_recv. Qed.
Print Assumptions C06_send_recv.

(** the bytes on the wire are MySQL packets carrying the message *)
Theorem C06_send_wire : forall checks c msg (reset : bool), accepting (c_ws c) ->
  let start := if reset then 0 else c_pkt_nr c in
  start < 256 -> checks = false \/ start + packet_count (blen msg) <= 255 ->
  exists seqs w c', send_msg checks msg reset c = (Ok tt, c') /\ message_wire seqs msg w
    /\ c_out c' = c_out c ++ w /\ consecutive start seqs
    /\ N.of_nat (length seqs) = packet_count (blen msg)
    /\ c_pkt_nr c' = (start + packet_count (blen msg)) mod 256
    /\ accepting (c_ws c') /\ same_but_write c c'.
Proof. exact send_msg_spec. Qed.
Print Assumptions C06_send_wire.

(** C07: a command (reset) is numbered from 0, anything else continues after the
    last packet; the numbers are consecutive modulo 256 *)
Theorem C07_send_numbers : forall c msg (reset : bool), accepting (c_ws c) ->
  let start := if reset then 0 else c_pkt_nr c in
  start < 256 ->
  exists seqs w c', send_msg false msg reset c = (Ok tt, c') /\ message_wire seqs msg w
    /\ c_out c' = c_out c ++ w /\ consecutive start seqs
    /\ c_pkt_nr c' = (start + N.of_nat (length seqs)) mod 256.
Proof. exact send_msg_numbers. Qed.
Print Assumptions C07_send_numbers.

Theorem C06_multiple_ends_empty : forall k seqs p w, message_wire seqs p w ->
  N.of_nat (length p) = k * full -> exists pre, w = pre ++ [x00; x00; x00; last seqs x00].
Proof. exact multiple_ends_empty. Qed.
Print Assumptions C06_multiple_ends_empty.

(** C07 / C08: receiving a message from any server, whatever its sequence
    numbers: exactly its bytes are consumed, and the next number is one more than
    that of the last packet *)
Theorem C07_recv : forall seqs p w c rest, message_wire seqs p w -> delivered (c_rd c) = w ++ rest ->
  exists c', recv_msg c = (Ok p, c') /\ delivered (c_rd c') = rest
    /\ c_pkt_nr c' = next_seq (last seqs x00) /\ same_but_read c c'.
Proof. exact recv_msg_spec. Qed.
Print Assumptions C07_recv.

(** Finding: with overflow checks, sending a packet numbered 255 panics after
    the packet was put on the wire. *)
Theorem C07_seq_255_refuted : forall c p, accepting (c_ws c) -> c_pkt_nr c = 255 ->
  exists c', send_packet true p c = (Panic PArith, c').
Proof. exact send_packet_255. Qed.
Print Assumptions C07_seq_255_refuted.

Theorem C08_recv_many : forall ps ws, messages_wire ps ws ->
  forall c rest, delivered (c_rd c) = ws ++ rest ->
  exists c', recv_n (length ps) c = (Ok ps, c') /\ delivered (c_rd c') = rest.
Proof. exact recv_many. Qed.
Print Assumptions C08_recv_many.

(** a stream ending (or failing) anywhere inside a message yields an error *)
Theorem C08_truncated : forall seqs p w c rest, message_wire seqs p w ->
  w = delivered (c_rd c) ++ rest -> rest <> [] -> exists c', recv_msg c = (Err EIO, c').
Proof. exact recv_msg_truncated. Qed.
Print Assumptions C08_truncated.

(** on any stream whatever: a complete message consumed exactly, or an error *)
Theorem C08_total : forall c,
  (exists seqs p w rest c', recv_msg c = (Ok p, c') /\ message_wire seqs p w
     /\ delivered (c_rd c) = w ++ rest /\ delivered (c_rd c') = rest) \/
  (exists c', recv_msg c = (Err EIO, c')).
Proof. exact recv_msg_total. Qed.
Print Assumptions C08_total.

(** a message split over awkward chunks, followed by the start of another *)
Example C06_ex1 :
  let s := [RPending; RData [x02; x00]; RData [x00]; RPending; RData [x05; x68]; RData [x69; x01; x00]] in
  recv_msg (mk_conn s [] [] 0 0 0) = (Ok [x68; x69], mk_conn [RData [x01; x00]] [] [] 0 0 6).
Proof. reflexivity. Qed.
Example C06_ex2 :
  send_msg true [x68; x69] true (mk_conn [] [WAccept 1; WPending; WAccept 1] [] 0 0 9)
  = (Ok tt, mk_conn [] [] [x02; x00; x00; x00; x68; x69] 0 0 1).
Proof. reflexivity. Qed.
Example C06_ex3 : message_wire [x00] [x68; x69] [x02; x00; x00; x00; x68; x69].
Proof. apply mw_last; [reflexivity|]. exists [x02; x00; x00]. repeat split. Qed.
