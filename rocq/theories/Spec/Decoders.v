(** * Specification vocabulary: what a well behaved decoder is *)
From Verif Require Import Model.Base.

(** never panics and always terminates: the outcome is a value or an error *)
Definition no_panic {A} (p : parser A) : Prop :=
  forall bs, (exists a, fst (p bs) = Ok a) \/ (exists e, fst (p bs) = Err e).

(** the remaining input is a suffix of the input (whatever the outcome) *)
Definition suffix_p {A} (p : parser A) : Prop :=
  forall bs, exists used, bs = used ++ snd (p bs).

(** success does not depend on the bytes after those consumed *)
Definition local_p {A} (p : parser A) : Prop :=
  forall bs ext a rest, p bs = (Ok a, rest) -> p (bs ++ ext) = (Ok a, rest ++ ext).

Definition good {A} (p : parser A) : Prop := no_panic p /\ suffix_p p /\ local_p p.
