(** * Model of bytes-parser/src/util.rs: the futures that the two exported macros define *)
From Verif Require Import Model.Base.
Open Scope nat_scope.

(** What [poll] returns: pending, with what the future keeps in its fields, or its output. *)
Inductive polled (S A : Type) := NPending (s : S) | NReady (r : res A).
Arguments NPending {S A} s.
Arguments NReady {S A} r.

(** ** read_number_future! (util.rs:2-55) *)
(** An [AsyncRead] is a list of what its next calls of [poll_read] do, and the bytes that are still to come.
    [RTake k]: at most [k + 1] bytes are there, so that nothing is read only at the end of the bytes. *)
Inductive rstep := RPending | RInterrupted | RFailed | RTake (k : nat).
Section Read.
  Variable A : Type.
  Variables (len : nat) (f : bytes -> A).
  (** util.rs:27-52.  [got] is [buf[..read]]; on an empty list of steps the reader is pending and stays so. *)
  Fixpoint num_read_poll (got : bytes) (steps : list rstep) (stream : bytes) : polled bytes A * (list rstep * bytes) :=
    match steps with
    | [] => (NPending got, ([], stream))
    | RPending :: steps => (NPending got, (steps, stream))
    | RInterrupted :: steps => num_read_poll got steps stream
    | RFailed :: steps => (NReady (Err EIO), (steps, stream))
    | RTake k :: steps =>
        let n := Nat.min (S k) (len - length got) in
        match firstn n stream with
        | [] => (NReady (Err (EIncomplete (Some (N.of_nat (len - length got))))), (steps, stream))
        | bs =>
            let got := got ++ bs in
            if length got =? len then (NReady (Ok (f got)), (steps, skipn n stream)) else num_read_poll got steps (skipn n stream)
        end
    end.
  (** [.await]: polled until it is ready; [Loop] if it never is *)
  Fixpoint num_read_await (fuel : nat) (got : bytes) (steps : list rstep) (stream : bytes) : res A * bytes :=
    match fuel with
    | O => (Loop, stream)
    | S fuel =>
        match num_read_poll got steps stream with
        | (NPending got, (steps, stream)) => num_read_await fuel got steps stream
        | (NReady r, (_, stream)) => (r, stream)
        end
    end.
  (** util.rs:15-21 and its use *)
  Definition num_read (steps : list rstep) (stream : bytes) : res A * bytes := num_read_await (S (length steps)) [] steps stream.
End Read.

(** ** write_number_future! (util.rs:58-91) *)
(** An [AsyncWrite]; [WTake k]: at most [k] bytes are taken, 0 if no more can be written. *)
Inductive wstep := WPending | WInterrupted | WFailed | WTake (k : nat).
Section Write.
  Variable ns : bytes.   (* [$fname(self.n)], of [$len] bytes *)
  (** util.rs:70-88: every call of [poll_write] is given the whole number; [write] is a local variable *)
  Fixpoint num_write_poll (write : nat) (steps : list wstep) (out : bytes) : polled unit unit * (list wstep * bytes) :=
    match steps with
    | [] => (NPending tt, ([], out))
    | WPending :: steps => (NPending tt, (steps, out))
    | WInterrupted :: steps => num_write_poll write steps out
    | WFailed :: steps => (NReady (Err EIO), (steps, out))
    | WTake k :: steps =>
        let n := Nat.min k (length ns) in
        let out := out ++ firstn n ns in
        if n =? 0 then (NReady (Err EOutput), (steps, out))
        else if write + n =? length ns then (NReady (Ok tt), (steps, out))
        else num_write_poll (write + n) steps out
    end.
  Fixpoint num_write_await (fuel : nat) (steps : list wstep) (out : bytes) : res unit * bytes :=
    match fuel with
    | O => (Loop, out)
    | S fuel =>
        match num_write_poll 0 steps out with
        | (NPending _, (steps, out)) => num_write_await fuel steps out
        | (NReady r, (_, out)) => (r, out)
        end
    end.
  (** the outcome and what the writer was given *)
  Definition num_write (steps : list wstep) : res unit * bytes := num_write_await (S (length steps)) steps [].
End Write.
