(** * Independent specification: what a MySQL server verifies

    mysql_native_password and caching_sha2_password, from the server's point of
    view.  The server knows only the double digest of the password. *)
From Coq Require Import List NArith Bool.
From Verif Require Import Model.Base.
Import ListNotations.
Open Scope N_scope.

Definition xorb8 (a b : byte) : byte := n2b (N.lxor (Byte.to_N a) (Byte.to_N b)).
(** bytewise XOR; defined only for equal lengths *)
Fixpoint bxor (a b : bytes) : option bytes :=
  match a, b with
  | [], [] => Some []
  | x :: a, y :: b => match bxor a b with Some r => Some (xorb8 x y :: r) | None => None end
  | _, _ => None
  end.

(** native: stage1 := response XOR SHA1(nonce ++ stored); accept iff SHA1(stage1) = stored *)
Definition native_accepts (sha1 : bytes -> bytes) (stored nonce response : bytes) : Prop :=
  exists stage1, bxor response (sha1 (nonce ++ stored)) = Some stage1 /\ sha1 stage1 = stored.

(** caching_sha2: digest := response XOR SHA256(stored ++ nonce); accept iff SHA256(digest) = stored *)
Definition sha2_accepts (sha256 : bytes -> bytes) (stored nonce response : bytes) : Prop :=
  exists digest, bxor response (sha256 (stored ++ nonce)) = Some digest /\ sha256 digest = stored.
