(** * Independent specification: which files are opened, and what is read from them *)
From Verif Require Import Model.Base Model.Event Spec.Nums Spec.Accepts Spec.AcceptsEvents.
Open Scope N_scope.

(** the first event of a file: header, description of the server, a table of lengths, what follows it; the
    entry of the table for the format description itself, the 15th, is 57 more than the table is long.
    Then the kind of checksum, which may be missing; only kind 1 is one, and the four bytes after it are
    the checksum of this event, which is not verified *)
Definition first_event_layout (h : event_header) (o : parser_v4 * option N) (w : bytes) : Prop :=
  exists start header_len table tail own,
    fields [header_layout h; start_layout start; byte1 header_len; exactly table; exactly tail] w /\
    N.of_nat (length w) = h_event_len h /\
    nth_error (table ++ tail) 14 = Some own /\ b2n own = 57 + N.of_nat (length table) /\
    p_post_header_lengths (fst o) = x00 :: table /\
    match tail with
    | x01 :: tail => p_checksum (fst o) = true /\ exists sum w1 more, tail = w1 ++ more /\ is_le 4 sum w1 /\ snd o = Some sum
    | _ => p_checksum (fst o) = false /\ snd o = None
    end.
(** a file: the magic number and an event of type format description *)
Definition opened_layout (p : parser_v4) (w : bytes) : Prop :=
  exists h sum, h_type h = EtFormatDescription /\ fields [exactly [xfe; x62; x69; x6e]; first_event_layout h (p, sum)] w.
(** a file read up to and including its [n]th further event *)
Definition file_layout (crc : bytes -> N) (validate : bool) (n : nat) (events : list (option event)) (w : bytes) : Prop :=
  exists p, length events = n /\ fields (opened_layout p :: map (event_layout crc (p_checksum p) validate) events) w.
(** an event at the start of the input whose last four bytes are the checksum of those before *)
Definition checked_layout (crc : bytes -> N) (bs : bytes) : Prop :=
  exists h hw more front trailer rest, bs = hw ++ more /\ header_layout h hw /\ bs = front ++ trailer ++ rest /\
    length trailer = 4%nat /\ N.of_nat (length front) + 4 = h_event_len h /\ le_val trailer = crc front.
