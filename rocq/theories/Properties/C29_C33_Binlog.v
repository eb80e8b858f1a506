(** C29-C33: binlog event headers, event types, framing, checksums, files.
    Specification: Spec/BinlogSpec.v.  [crc] is any checksum function; C32_crc32 says which
    one MySQL uses. *)
From Coq Require Import Strings.String.
From Verif Require Import Model.Base Model.BytesParser Model.Utf8 Model.Auth Model.Event Spec.Nums Spec.Wire Spec.BinlogSpec
  Proofs.EventProofs.
Open Scope N_scope.

(** *** C29: any 19 bytes are the header of exactly the fields they carry; an unknown type code is
    the only error *)
Theorem C29_header : forall bs rest, length bs = 19%nat ->
  exists timestamp code server_id len next_pos flags,
    header_fields_ok timestamp code server_id len next_pos flags /\
    bs = header_bytes timestamp code server_id len next_pos flags /\
    match type_with_code code with
    | Some t => read_event_header (bs ++ rest) = (Ok (mk_header timestamp t server_id len next_pos (flags mod 1024)), rest)
    | None => fst (read_event_header (bs ++ rest)) = Err EConstraint
    end.
Proof. exact header_any. Qed.
Print Assumptions C29_header.
(** fewer than 19 bytes are always rejected *)
Theorem C29_short : forall bs, (length bs < 19)%nat ->
  (exists k, fst (read_event_header bs) = Err (EIncomplete (Some k))) \/ fst (read_event_header bs) = Err EConstraint.
Proof. exact header_short. Qed.
Print Assumptions C29_short.
(** the 13-byte header of version 1 logs is the first part of it *)
Theorem C29_header_v1 : forall timestamp code server_id len rest, timestamp < 2 ^ 32 -> code < 2 ^ 8 -> server_id < 2 ^ 32 ->
  len < 2 ^ 32 ->
  read_event_header_v1 (wle 4 timestamp ++ wle 1 code ++ wle 4 server_id ++ wle 4 len ++ rest) =
    (match type_with_code code with Some t => Ok (mk_header_v1 timestamp t server_id len) | None => Err EConstraint end, rest).
Proof. exact header_v1_read. Qed.
Print Assumptions C29_header_v1.
(** the payload length *)
Theorem C29_data_len : forall h, 19 <= h_event_len h -> data_len h = Ok (h_event_len h - 19).
Proof. exact data_len_ok. Qed.
Print Assumptions C29_data_len.
(** Finding: a total length below 19 panics instead of being rejected *)
Theorem C29_data_len_refuted : forall h, h_event_len h < 19 -> data_len h = Panic PArith.
Proof. exact data_len_short. Qed.
Print Assumptions C29_data_len_refuted.
(** the shortcuts that only read the type or the length agree with the header *)
Theorem C29_fast : forall timestamp code server_id len next_pos flags rest,
  header_fields_ok timestamp code server_id len next_pos flags ->
  fst (read_event_type (header_bytes timestamp code server_id len next_pos flags ++ rest)) =
    match type_with_code code with Some t => Ok t | None => Err EConstraint end /\
  fst (read_event_length (header_bytes timestamp code server_id len next_pos flags ++ rest)) = Ok len.
Proof. exact fast_type. Qed.
Print Assumptions C29_fast.
Example C29_example : let bs := header_bytes 1589000000 15 1 119 123 0x0401 in
  header_fields_ok 1589000000 15 1 119 123 0x0401 /\ length bs = 19%nat /\
  read_event_header (bs ++ [x07]) = (Ok (mk_header 1589000000 EtFormatDescription 1 119 123 1), [x07]) /\
  rbind (fst (read_event_header bs)) data_len = Ok 100 /\
  fst (read_event_header (header_bytes 0 39 0 0 0 0)) = Err EConstraint.
Proof. repeat split. Qed.

(** *** C30 *)
Theorem C30_round_trip : forall t, event_type_of (event_type_code t) = Ok t /\ event_type_code t < 39.
Proof. exact event_type_round_trip. Qed.
Print Assumptions C30_round_trip.
Theorem C30_codes : forall code,
  event_type_of code = match type_with_code code with Some t => Ok t | None => Err EConstraint end /\
  (code < 39 <-> exists t, event_type_of code = Ok t /\ event_type_code t = code).
Proof. exact event_type_codes. Qed.
Print Assumptions C30_codes.
Theorem C30_injective : forall t u, event_type_code t = event_type_code u -> t = u.
Proof. exact event_type_inj. Qed.
Print Assumptions C30_injective.
Example C30_example : event_type_of 38 = Ok EtXaPrepare /\ event_type_of 39 = Err EConstraint /\ event_type_code EtTableMap = 19.
Proof. repeat split. Qed.

(** *** C31: one event and a whole log; [stored] is the event as in the log, [parsed] what a reader
    should get *)
Theorem C31_parse : forall crc self validate e rest, (forall bs, crc bs < 2 ^ 32) ->
  log_event_ok (p_checksum self) e ->
  parse_event crc self validate (stored crc (p_checksum self) e ++ rest) = (Ok (parsed (p_checksum self) e), rest).
Proof. exact parse_stored. Qed.
Print Assumptions C31_parse.
Theorem C31_parse_all : forall crc self validate es rest, (forall bs, crc bs < 2 ^ 32) ->
  Forall (log_event_ok (p_checksum self)) es ->
  prepeat (length es) (parse_event crc self validate) (concat (map (stored crc (p_checksum self)) es) ++ rest) =
    (Ok (map (parsed (p_checksum self)) es), rest).
Proof. exact parse_stored_all. Qed.
Print Assumptions C31_parse_all.
(** conversely whatever is returned is an event that was there, with the announced length *)
Theorem C31_sound : forall crc self validate bs r rest, parse_event crc self validate bs = (Ok r, rest) ->
  exists e trailer, log_event_ok (p_checksum self) e /\ (length trailer = if p_checksum self then 4 else 0)%nat /\
    bs = event_front (p_checksum self) e ++ trailer ++ rest /\
    N.of_nat (length bs) = event_size (p_checksum self) e + N.of_nat (length rest) /\ r = parsed (p_checksum self) e.
Proof. exact parse_sound. Qed.
Print Assumptions C31_sound.
(** skipping consumes what parsing consumes *)
Theorem C31_skip : forall crc self bs r rest,
  parse_event crc self false bs = (Ok r, rest) -> skip_event self bs = (Ok tt, rest).
Proof. exact skip_parse. Qed.
Print Assumptions C31_skip.
Theorem C31_skip_stored : forall crc self sum e rest, log_event_ok sum e ->
  skip_event self (stored crc sum e ++ rest) = (Ok tt, rest).
Proof. exact skip_stored. Qed.
Print Assumptions C31_skip_stored.
(** Finding: an announced length below the header's 19 bytes, or one without room for the
    checksum, panics. *)
Theorem C31_short_length_refuted : forall crc self timestamp code server_id len next_pos flags data rest,
  header_fields_ok timestamp code server_id len next_pos flags -> code < 39 ->
  len < 19 \/ (p_checksum self = true /\ 19 <= len < 23 /\ N.of_nat (length data) = len - 19) ->
  fst (parse_event crc self false (header_bytes timestamp code server_id len next_pos flags ++ data ++ rest)) = Panic PArith.
Proof. exact parse_short. Qed.
Print Assumptions C31_short_length_refuted.
Example C31_example :
  let xid := mk_log_event 1 16 2 300 0 (wle 8 77) in
  let rq := mk_log_event 1 29 2 400 0x80 (str "x") in
  let p := mk_parser [] true in
  log_event_ok true xid /\ log_event_ok true rq /\
  prepeat 2 (parse_event crc32 p true) (concat (map (stored crc32 true) [xid; rq])) =
    (Ok [Some (mk_event KXid (mk_header 1 EtXid 2 31 300 0) (wle 8 77)); None], []).
Proof. repeat split; vm_compute; reflexivity. Qed.

(** *** C32: [trailer] is the checksum stored after the event *)
Theorem C32_mismatch : forall crc self e trailer rest, p_checksum self = true -> log_event_ok true e ->
  trailer < 2 ^ 32 -> trailer <> crc (event_front true e) ->
  parse_event crc self true (event_front true e ++ wle 4 trailer ++ rest) =
    (Err (EChecksum trailer (crc (event_front true e))), event_front true e ++ wle 4 trailer ++ rest).
Proof. exact parse_bad_checksum. Qed.
Print Assumptions C32_mismatch.
Theorem C32_only_valid : forall crc self bs r rest, p_checksum self = true ->
  parse_event crc self true bs = (Ok r, rest) ->
  exists e, log_event_ok true e /\ bs = stored crc true e ++ rest /\ r = parsed true e.
Proof. exact parse_inv_true. Qed.
Print Assumptions C32_only_valid.
(** without validation any trailer is accepted and the result is the same *)
Theorem C32_unvalidated : forall crc self e trailer rest, p_checksum self = true -> log_event_ok true e ->
  length trailer = 4%nat ->
  parse_event crc self false (event_front true e ++ trailer ++ rest) = (Ok (parsed true e), rest).
Proof. exact parse_unvalidated. Qed.
Print Assumptions C32_unvalidated.
Theorem C32_checksum_event : forall crc self e trailer rest, log_event_ok true e -> trailer < 2 ^ 32 ->
  checksum_event crc self (event_front true e ++ wle 4 trailer ++ rest) =
    if p_checksum self
    then if trailer =? crc (event_front true e) then Ok tt else Err (EChecksum trailer (crc (event_front true e)))
    else Err EBinlogFormat.
Proof. exact checksum_event_all. Qed.
Print Assumptions C32_checksum_event.
(** MySQL's checksum meets the assumption made about [crc]; the literals are those of the unit
    test util.rs:123-127 *)
Theorem C32_crc32 : forall bs, crc32 bs < 2 ^ 32.
Proof. exact crc32_lt. Qed.
Print Assumptions C32_crc32.
Example C32_example : crc32 (str "hello") = 907060870 /\ crc32 (str "world") = 980881731 /\
  let xid := mk_log_event 1 16 2 300 0 (wle 8 77) in
  event_front true xid <> [] /\ 5 <> crc32 (event_front true xid) /\
  fst (parse_event crc32 (mk_parser [] true) true (event_front true xid ++ wle 4 5)) =
    Err (EChecksum 5 (crc32 (event_front true xid))).
Proof. vm_compute. repeat split; discriminate. Qed.

(** *** C33: opening a file whose first event [e] is the format description [d] *)
Theorem C33_open : forall e d rest, log_event_ok false e -> le_code e = 15 -> fde_ok d -> le_body e = fde_body d ->
  from_binlog_file (file_bytes e rest) =
    (Ok (mk_parser (x00 :: fd_lens d) (match fd_tail d with Some (alg, _) => alg =? 1 | None => false end)), rest).
Proof. exact open_file. Qed.
Print Assumptions C33_open.
(** the same from the bytes of the event alone, which also returns the event's own checksum *)
Theorem C33_fde_bytes : forall e d rest, log_event_ok false e -> le_code e = 15 -> fde_ok d -> le_body e = fde_body d ->
  from_fde_bytes (event_front false e ++ rest) =
    (Ok (mk_parser (x00 :: fd_lens d) (match fd_tail d with Some (alg, _) => alg =? 1 | None => false end),
         match fd_tail d with Some (1, sum) => Some (le_val sum) | _ => None end), rest).
Proof. exact open_fde. Qed.
Print Assumptions C33_fde_bytes.
(** only files with the magic number whose first event is a format description are accepted, with the
    settings it announces: the table of lengths ends where its entry for event 15 says, followed by the
    checksum algorithm if there is more *)
Theorem C33_accepted : forall bs p rest, from_binlog_file bs = (Ok p, rest) ->
  exists e version server created header_len table own,
    bs = file_bytes e rest /\ log_event_ok false e /\ le_code e = 15 /\
    le_body e = wle 2 version ++ server ++ wle 4 created ++ wle 1 header_len ++ table /\ length server = 50%nat /\
    nth_error table 14 = Some own /\ 57 <= b2n own /\ (N.to_nat (b2n own - 57) <= length table)%nat /\
    p_post_header_lengths p = x00 :: firstn (N.to_nat (b2n own - 57)) table /\
    (p_checksum p = true <-> nth_error table (N.to_nat (b2n own - 57)) = Some x01) /\
    (p_checksum p = true -> (N.to_nat (b2n own - 57) + 5 <= length table)%nat).
Proof. exact open_inv. Qed.
Print Assumptions C33_accepted.
Theorem C33_no_magic : forall bs, (forall rest, bs <> file_magic ++ rest) ->
  (exists k, fst (from_binlog_file bs) = Err (EIncomplete (Some k))) \/ fst (from_binlog_file bs) = Err EConstraint.
Proof. exact open_no_magic. Qed.
Print Assumptions C33_no_magic.
Theorem C33_other_event : forall e rest, log_event_ok false e -> le_code e <> 15 ->
  fst (from_binlog_file (file_bytes e rest)) = Err (if le_code e =? 1 then EBinlogFormat else EConstraint).
Proof. exact open_other_event. Qed.
Print Assumptions C33_other_event.
(** opening a log and reading it to the end yields exactly its events *)
Theorem C33_read_log : forall crc validate e d es, (forall bs, crc bs < 2 ^ 32) ->
  log_event_ok false e -> le_code e = 15 -> fde_ok d -> le_body e = fde_body d ->
  Forall (log_event_ok (match fd_tail d with Some (alg, _) => alg =? 1 | None => false end)) es ->
  (p <- from_binlog_file ;; prepeat (length es) (parse_event crc p validate))
    (file_bytes e (concat (map (stored crc (match fd_tail d with Some (alg, _) => alg =? 1 | None => false end)) es))) =
  (Ok (map (parsed (match fd_tail d with Some (alg, _) => alg =? 1 | None => false end)) es), []).
Proof. exact read_log. Qed.
Print Assumptions C33_read_log.
Example C33_example :
  let d := mk_fde_spec 4 (str "5.7.30-log") 0 19 (repeat x00 14 ++ [n2b 95] ++ repeat x08 23) (Some (1, wle 4 99)) in
  let e := mk_log_event 7 15 1 123 0 (fde_body d) in
  fde_ok d /\ log_event_ok false e /\ event_size false e = 119 /\
  from_binlog_file (file_bytes e [x01]) = (Ok (mk_parser (x00 :: fd_lens d) true), [x01]).
Proof.
  assert (no_nul (str "5.7.30-log")) by (intros H; repeat destruct H as [H|H]; try discriminate; exact H).
  cbv zeta. repeat split; try reflexivity; try assumption. apply Nat.ltb_lt; reflexivity.
Qed.
