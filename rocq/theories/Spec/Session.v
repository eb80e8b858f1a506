(** * Specification vocabulary: a client's conversation with a server

    A server is represented by the messages it sends (over any chunking of the
    stream and any split into packets) and by what it reads. *)
From Coq Require Import List NArith.
From Verif Require Import Model.Base Model.Conn Spec.Framing.
Import ListNotations.

(** the next messages the server delivers to [c] are [ps]; the bytes [d] follow *)
Definition awaits (c : conn) (ps : list bytes) (d : bytes) : Prop :=
  exists w, messages_wire ps w /\ delivered (c_rd c) = w ++ d.

(** between [c] and [c'] the client sent exactly the messages [ms] *)
Definition sent (c c' : conn) (ms : list bytes) : Prop :=
  exists w, messages_wire ms w /\ c_out c' = c_out c ++ w.

(** as [awaits], and the first message is one packet numbered [s] *)
Definition awaits_numbered (c : conn) (s : byte) (p : bytes) (ps : list bytes) (d : bytes) : Prop :=
  exists w w', message_wire [s] p w /\ messages_wire ps w' /\ delivered (c_rd c) = (w ++ w') ++ d.
