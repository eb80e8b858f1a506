(** * Model of the framing layer of mybin-async/src/conn.rs *)
From Verif Require Import Model.Base Model.BytesParser.
Open Scope N_scope.

(** ** The transport.

    External: [futures::AsyncRead].  A read side is the list of answers the
    transport will give to successive [poll_read] calls; after the list is
    exhausted every call answers 0 bytes (end of stream).  A chunk longer than the
    caller's buffer is delivered piecewise.  [RPending] is followed by a wake-up,
    i.e. by a further poll. *)
Inductive rpoll : Type :=
| RPending
| RData (bs : bytes)   (* Ready(Ok(n)); [RData []] is a zero length read *)
| RFail.               (* Ready(Err(_)) *)

(** External: [futures::AsyncWrite]: answers to successive [poll_write] calls;
    when the list is exhausted the transport accepts everything. *)
Inductive wpoll : Type :=
| WPending
| WAccept (n : nat)    (* Ready(Ok(min n len)) *)
| WFail.

(** [futures::io::AsyncReadExt::read_exact]: poll until the buffer is full; a
    zero length read is [UnexpectedEof]. *)
Fixpoint read_exact (k : nat) (s : list rpoll) (acc : bytes) : res bytes * list rpoll :=
  match k with
  | O => (Ok acc, s)
  | S _ =>
    match s with
    | [] => (Err EIO, [])
    | RPending :: s => read_exact k s acc
    | RFail :: s => (Err EIO, s)
    | RData [] :: s => (Err EIO, s)
    | RData c :: s =>
        if (length c <=? k)%nat then read_exact (k - length c) s (acc ++ c)
        else (Ok (acc ++ firstn k c), RData (skipn k c) :: s)
    end
  end.

(** [futures::io::AsyncWriteExt::write_all]: poll until everything is accepted;
    a zero length write is [WriteZero]. Returns the bytes put on the wire. *)
Fixpoint write_all (bs : bytes) (s : list wpoll) : res unit * bytes * list wpoll :=
  match bs with
  | [] => (Ok tt, [], s)
  | _ =>
    match s with
    | [] => (Ok tt, bs, [])
    | WPending :: s => write_all bs s
    | WFail :: s => (Err EIO, [], s)
    | WAccept O :: s => (Err EIO, [], s)
    | WAccept n :: s =>
        let '(r, out, s') := write_all (skipn n bs) s in (r, firstn n bs ++ out, s')
    end
  end.

(** conn.rs:26-31, [stream] split into its two directions; [out] is everything
    written so far. *)
Record conn : Type := mk_conn {
  c_rd : list rpoll;
  c_ws : list wpoll;
  c_out : bytes;
  c_cap : N;        (* cap_flags *)
  c_status : N;     (* server_status *)
  c_pkt_nr : N;     (* u8 *)
}.

Definition set_rd (c : conn) (s : list rpoll) : conn :=
  mk_conn s (c_ws c) (c_out c) (c_cap c) (c_status c) (c_pkt_nr c).
Definition set_wr (c : conn) (s : list wpoll) (out : bytes) : conn :=
  mk_conn (c_rd c) s out (c_cap c) (c_status c) (c_pkt_nr c).
Definition set_cap (c : conn) (f : N) : conn :=
  mk_conn (c_rd c) (c_ws c) (c_out c) f (c_status c) (c_pkt_nr c).
Definition set_status (c : conn) (f : N) : conn :=
  mk_conn (c_rd c) (c_ws c) (c_out c) (c_cap c) f (c_pkt_nr c).
Definition set_pkt_nr (c : conn) (n : N) : conn :=
  mk_conn (c_rd c) (c_ws c) (c_out c) (c_cap c) (c_status c) n.

(** Computations on a connection *)
Definition io (A : Type) := conn -> res A * conn.
Definition iret {A} (a : A) : io A := fun c => (Ok a, c).
Definition ierr {A} (e : error) : io A := fun c => (Err e, c).
Definition ipanic {A} (p : panic) : io A := fun c => (Panic p, c).
Definition ilift {A} (r : res A) : io A := fun c => (r, c).
Definition ibind {A B} (m : io A) (f : A -> io B) : io B := fun c =>
  match m c with
  | (Ok a, c) => f a c
  | (Err e, c) => (Err e, c)
  | (Panic p, c) => (Panic p, c)
  | (Loop, c) => (Loop, c)
  end.
Notation "x <~ m ;; k" := (ibind m (fun x => k)) (at level 61, m at next level, right associativity).
Notation "' x <~ m ;; k" := (ibind m (fun x => k)) (at level 61, x pattern, m at next level, right associativity).

(** [self.stream.read_exact(&mut buf[..k]).await?] *)
Definition io_read_exact (k : nat) : io bytes := fun c =>
  let '(r, s) := read_exact k (c_rd c) [] in (r, set_rd c s).
(** [self.stream.write_all(bs).await?] *)
Definition io_write_all (bs : bytes) : io unit := fun c =>
  let '(r, out, s) := write_all bs (c_ws c) in (r, set_wr c s (c_out c ++ out)).

(** conn.rs:37-39 *)
Definition reset_pkt_nr : io unit := fun c => (Ok tt, set_pkt_nr c 0).

(** conn.rs:73 / 101: the payload length marking a continued message *)
Definition max_payload : N := 0xffffff.

(** conn.rs:49-80, the loop; [bs] is the payload so far. *)
Fixpoint recv_loop (fuel : nat) (bs : bytes) : io bytes :=
  match fuel with
  | O => ilift Loop
  | S fuel =>
      len <~ io_read_exact 3 ;;
      let len :=
        match len with
        | [l0; l1; l2] => b2n l0 + N.shiftl (b2n l1) 8 + N.shiftl (b2n l2) 16
        | _ => 0 (* unreachable: 3 bytes were read *)
        end in
      seq <~ io_read_exact 1 ;;
      let seq := match seq with [s] => b2n s | _ => 0 end in
      _ <~ (fun c => (Ok tt, set_pkt_nr c (if seq =? 0xff then 0 else seq + 1))) ;;
      payload <~ io_read_exact (N.to_nat len) ;;
      let bs := bs ++ payload in
      if len <? max_payload then iret bs else recv_loop fuel bs
  end.

(** number of bytes the read schedule can deliver; bounds the iterations *)
Fixpoint sched_len (s : list rpoll) : nat :=
  match s with
  | [] => O
  | RData bs :: s => length bs + sched_len s
  | _ :: s => sched_len s
  end.

(** conn.rs:49 *)
Definition recv_msg : io bytes := fun c => recv_loop (S (sched_len (c_rd c))) [] c.

(** [self.pkt_nr += 1] on a u8; [checks] = compiled with overflow checks. *)
Definition inc_pkt_nr (checks : bool) : io unit := fun c =>
  if c_pkt_nr c =? 255
  then (if checks then (Panic PArith, c) else (Ok tt, set_pkt_nr c 0))
  else (Ok tt, set_pkt_nr c (c_pkt_nr c + 1)).

(** conn.rs:110-127 *)
Definition send_packet (checks : bool) (payload : bytes) : io unit :=
  let len := blen payload in
  let hdr := [n2b (N.land len 0xff); n2b (N.land (N.shiftr len 8) 0xff); n2b (N.land (N.shiftr len 16) 0xff)] in
  _ <~ io_write_all hdr ;;
  _ <~ (fun c => io_write_all [n2b (c_pkt_nr c)] c) ;;
  _ <~ io_write_all payload ;;
  inc_pkt_nr checks.

(** conn.rs:101-106: full packets while at least 0xffffff bytes remain, then the
    (possibly empty) rest.  [fuel] > number of full packets. *)
Fixpoint send_loop (checks : bool) (fuel : nat) (bs : bytes) : io unit :=
  match fuel with
  | O => ilift Loop
  | S fuel =>
      if max_payload <=? blen bs then
        _ <~ send_packet checks (firstn (N.to_nat max_payload) bs) ;;
        send_loop checks fuel (skipn (N.to_nat max_payload) bs)
      else send_packet checks bs
  end.

(** conn.rs:90-108; the message is given by the bytes [write_to] produces
    (none of the message types' [write_to] depends on the connection). *)
Definition send_msg (checks : bool) (msg : bytes) (reset : bool) : io unit :=
  _ <~ (if reset then reset_pkt_nr else iret tt) ;;
  send_loop checks (S (length msg)) msg.
