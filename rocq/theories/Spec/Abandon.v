(** * Specification: giving up a call that waits

    A future can be dropped while it is pending, for example by a timeout.  What the call had read by then
    is gone with it; the connection can be used again. *)
From Coq Require Import List NArith.
From Verif Require Import Model.Base Model.Conn Spec.Nums Spec.Framing.
Import ListNotations.
Open Scope N_scope.

(** answers of a transport that works: waiting and data *)
Definition flowing (s : list rpoll) : Prop := Forall (fun p => p = RPending \/ exists b bs, p = RData (b :: bs)) s.
(** [m], a call that does nothing more once a read fails, is dropped while it waits for the read side of
    [c]: [got] had arrived by then and did not suffice, and [c'] is the connection left behind.  Where the
    call stops is where it would have noticed the end of the stream, had the stream ended there. *)
Definition abandoned {A} (m : io A) (c : conn) (got : bytes) (c' : conn) : Prop :=
  exists pre post c1, flowing pre /\ c_rd c = pre ++ RPending :: post /\ got = delivered pre /\
    m (set_rd c pre) = (Err EIO, c1) /\ c' = set_rd c1 post.
(** the same for a call that sends a message [m] and waits for the write side; [put] had been taken *)
Definition abandoned_sending {A} (m : io A) (c : conn) (put : bytes) (c' : conn) : Prop :=
  exists pre post c1, accepting pre /\ c_ws c = pre ++ WPending :: post /\
    m (mk_conn (c_rd c) (pre ++ [WFail]) (c_out c) (c_cap c) (c_status c) (c_pkt_nr c)) = (Err EIO, c1) /\
    c_out c1 = c_out c ++ put /\ c' = mk_conn (c_rd c1) post (c_out c1) (c_cap c1) (c_status c1) (c_pkt_nr c1).
