(** * What the readers and writers of Model/NumFuture.v do *)
From Coq Require Import List Arith.
From Verif Require Import Model.Base Model.NumFuture.
Import ListNotations.
Open Scope nat_scope.

(** the bytes that a reader has by the end of the steps, if the stream is long enough *)
Fixpoint offered (steps : list rstep) : nat :=
  match steps with [] => 0 | RTake k :: steps => S k + offered steps | _ :: steps => offered steps end.
(** no step fails *)
Definition sound (steps : list rstep) : Prop := ~ In RFailed steps.
(** the writer takes nothing yet *)
Definition idle (steps : list wstep) : Prop := Forall (fun s => s = WPending \/ s = WInterrupted) steps.
(** what the writer takes in each call, of the bytes [ns] *)
Fixpoint pieces (ns : bytes) (steps : list wstep) : list bytes :=
  match steps with [] => [] | WTake k :: steps => firstn k ns :: pieces ns steps | _ :: steps => pieces ns steps end.
