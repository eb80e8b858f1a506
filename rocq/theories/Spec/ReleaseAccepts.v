(** * Independent specification: what a release build takes for a greeting, a first event, an event

    A release build computes lengths modulo a power of two.  Apart from the lengths, and from an event too short for its
    checksum, the layouts are those of Spec/Accepts.v, Spec/AcceptsEvents.v and Spec/AcceptsFile.v *)
From Coq Require Import Strings.String.
From Coq Require Import List NArith Bool.
From Verif Require Import Model.Base Model.Utf8 Model.Conn Model.Packet Model.Auth Model.Col Model.Stmt Model.Extract Model.Event Model.Session Model.Stream
  Spec.Nums Spec.LenEncSpec Spec.Wire Spec.Packets Spec.Framing Spec.ResultSets Spec.HostileExact Spec.Accepts Spec.AcceptsEvents Spec.AcceptsFile Spec.Verdicts Spec.VerdictsCalls.
Import ListNotations.
Open Scope N_scope.

(** a field of [k] bits gives the length [n]: it is [n + extra], without what does not fit into [k] bits *)
Definition gives (k field extra n : N) : Prop := n < 2 ^ k /\ (n + extra) mod 2 ^ k = field.

(** ** Greeting *)
Definition release_greeting_consistent (h : initial_handshake) : Prop :=
  let cap := hs_capabilities h in
  cap < 2 ^ 32 /\
  (if cap_secure_connection cap
   then exists n, gives 8 (hs_auth_len h) 8 n /\ N.of_nat (length (hs_auth_data_2 h)) = N.max 13 n
   else hs_auth_len h < 2 ^ 8 /\ hs_auth_data_2 h = []) /\
  (if cap_plugin_auth cap then utf8_valid (hs_plugin h) = true else hs_plugin h = []) /\
  length (hs_auth_data_1 h) = 8%nat.
Definition release_greeting_layout (h : initial_handshake) : bytes -> Prop := fun w =>
  let cap := hs_capabilities h in
  release_greeting_consistent h /\
  fields [byte1 (hs_protocol_version h); cstring (hs_server_version h); is_le 4 (hs_connection_id h);
          exactly (hs_auth_data_1 h); any 1; is_le 2 (cap mod 2 ^ 16); byte1 (hs_charset h); is_le 2 (hs_status h);
          is_le 2 (cap / 2 ^ 16); byte1 (hs_auth_len h); any 10; exactly (hs_auth_data_2 h);
          if cap_plugin_auth cap then cstring (hs_plugin h) else exactly []] w.

(** ** Events *)
(** header and as many bytes as it gives; with checksums, the last four bytes are taken away, if there are four.
    What is verified is the start of the event, as long as the header says *)
Definition release_event_layout (crc : bytes -> N) (checksums validate : bool) (o : option event) (w : bytes) : Prop :=
  exists h hw body data, w = hw ++ body /\ header_layout h hw /\ gives 32 (h_event_len h) 19 (N.of_nat (length body)) /\
    (if checksums
     then (exists trailer, body = data ++ trailer /\ length trailer = 4%nat) \/ ((length body < 4)%nat /\ data = body)
     else data = body) /\
    (checksums && validate = true -> exists front trailer more, w = front ++ trailer ++ more /\ length trailer = 4%nat /\
       N.of_nat (length front) + 4 = h_event_len h /\ le_val trailer = crc front) /\
    o = match event_kind_of (h_type h) with Some k => Some (mk_event k h data) | None => None end.
Definition release_skipped_layout (w : bytes) : Prop :=
  exists h hw body, w = hw ++ body /\ header_layout h hw /\ gives 32 (h_event_len h) 19 (N.of_nat (length body)).

(** ** Files *)
Definition release_first_event_layout (h : event_header) (o : parser_v4 * option N) (w : bytes) : Prop :=
  exists start header_len table tail own hw body,
    w = hw ++ body /\ header_layout h hw /\ gives 32 (h_event_len h) 19 (N.of_nat (length body)) /\
    fields [start_layout start; byte1 header_len; exactly table; exactly tail] body /\
    nth_error (table ++ tail) 14 = Some own /\ gives 8 (b2n own) 57 (N.of_nat (length table)) /\
    p_post_header_lengths (fst o) = x00 :: table /\
    match tail with
    | x01 :: tail => p_checksum (fst o) = true /\ exists sum w1 more, tail = w1 ++ more /\ is_le 4 sum w1 /\ snd o = Some sum
    | _ => p_checksum (fst o) = false /\ snd o = None
    end.
Definition release_opened_layout (p : parser_v4) (w : bytes) : Prop :=
  exists h sum, h_type h = EtFormatDescription /\ fields [exactly [xfe; x62; x69; x6e]; release_first_event_layout h (p, sum)] w.
Definition release_file_layout (crc : bytes -> N) (validate : bool) (n : nat) (events : list (option event)) (w : bytes) : Prop :=
  exists p, length events = n /\ fields (release_opened_layout p :: map (release_event_layout crc (p_checksum p) validate) events) w.

(** ** What calls report: as in Spec/Verdicts.v and Spec/VerdictsCalls.v *)
Definition release_login_reply (cap : N) (password : bytes) (v : verdict unit) (ms : list bytes) : Prop :=
  v = Done tt /\ exists greeting hs more m, ms = greeting :: more ++ [m] /\
    fields [release_greeting_layout hs; leftover] greeting /\ lets_pass (hs_plugin hs) password more /\ login_completion (cap_session_track cap) m.
Definition release_event_message (crc : bytes -> N) (checksum validate : bool) (o : option event) (m : bytes) : Prop :=
  exists body, m = x00 :: body /\ fields [release_event_layout crc checksum validate o; leftover] body.
Definition release_event_reply (crc : bytes -> N) (s : binlog_stream) (e : option event) (ms : list bytes) : Prop :=
  exists earlier m, ms = earlier ++ [m] /\
    Forall (release_event_message crc (p_checksum (s_pv4 s)) (s_validate s) None) earlier /\
    match e with
    | Some _ => release_event_message crc (p_checksum (s_pv4 s)) (s_validate s) e m
    | None => s_non_block s = true /\ starts_with xfe m
    end.
Definition release_start_reply (cap : N) (checksum : bool) (o : binlog_options) (v : verdict binlog_stream) (ms : list bytes) : Prop :=
  (exists m, ms = [m] /\ starts_with xfe m /\ end_of_data cap m /\ v = Done (mk_stream (mk_parser [] false) (bo_validate o) true (bo_non_block o))) \/
  (exists r b d first, ms = [x00 :: r; b :: d] /\ rotate_event checksum r /\
     fields [fun w => exists h, release_first_event_layout h first w; leftover] d /\
     v = Done (mk_stream (fst first) (bo_validate o) false (bo_non_block o))) \/
  refusal cap v ms.
Definition release_stream_reply (cap : N) (o : binlog_options) : verdict binlog_stream -> list bytes -> Prop :=
  let text := non_null string_from_text in
  and_then (required_reply cap (non_null u32_from_text)) (fun _ =>
  and_then (set_reply cap) (fun _ =>
  and_then (required_reply cap text) (fun algorithm =>
  and_then (set_reply cap) (fun _ =>
  and_then (required_reply cap text) (fun _ =>
  and_then (required_reply cap text) (fun _ =>
  and_then (set_reply cap) (fun _ =>
  and_then (plain_reply cap) (fun _ v ms =>
    exists checksum : bool, (checksum = true <-> algorithm = str "CRC32") /\ release_start_reply cap checksum o v ms)))))))).
