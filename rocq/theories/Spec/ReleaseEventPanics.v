(** * Independent specification: what stops a release build at the first event of a log

    As [fde_panics] and [fde_event_panics], for arithmetic that wraps around. *)
From Verif Require Import Model.Base Model.Utf8 Spec.Nums Spec.Catalogue Spec.Panics Spec.ReleaseAccepts.
Open Scope N_scope.

(** the post-header lengths [r] are fewer than fifteen, or fewer than the fifteenth less 57 (modulo 2^8) *)
Definition release_fde_panics (data : bytes) : Prop :=
  exists a server pad c r, data = a ++ (server ++ x00 :: pad) ++ c ++ r /\
    length a = 2%nat /\ length (server ++ x00 :: pad) = 50%nat /\ length c = 5%nat /\ ~ In x00 server /\ utf8_valid server = true /\
    ((length r < 15)%nat \/ exists k, gives 8 (b2n (nth 14 r x00)) 57 k /\ N.of_nat (length r) < k).
(** the data are as long as announced, less the 19 bytes of the header (modulo 2^32) *)
Definition release_fde_event_panics (bs : bytes) : Prop :=
  whole_header bs /\ exists data rest, skipn 19 bs = data ++ rest /\
    gives 32 (announced_length bs) 19 (N.of_nat (length data)) /\ release_fde_panics data.
(** a file: the magic number, and an event that says to be a format description (code 15) *)
Definition at_file_start (fatal : bytes -> Prop) (bs : bytes) : Prop :=
  exists event, bs = [xfe; x62; x69; x6e] ++ event /\ nth 4 event x00 = x0f /\ fatal event.
