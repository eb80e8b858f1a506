(** * Model of mybin-core/src/{packet.rs, handshake.rs, resp.rs} and of the error
    conversion in mybin-async/src/error.rs *)
From Verif Require Import Model.Base Model.BytesParser Model.LenEnc Model.Utf8 Model.Flags.
Open Scope N_scope.

(** packet.rs:12-16 *)
Record packet := mk_packet { p_len : N; p_seq : N; p_payload : bytes }.
(** packet.rs:18-29 *)
Definition read_packet : parser packet :=
  len <- read_le_u24 ;;
  seq <- read_u8 ;;
  payload <- read_len len ;;
  pret (mk_packet len seq payload).

(** packet.rs:78-94 *)
Record ok_packet := mk_ok {
  ok_header : N; ok_affected_rows : N; ok_last_insert_id : N; ok_status : N; ok_warnings : N;
  ok_info : bytes; ok_session_state : bytes }.

(** the idiom [read_len_enc_int()?.to_u64().ok_or_else(ConstraintError)?],
    packet.rs:100-107 *)
Definition read_lei_u64 : parser N :=
  l <- read_len_enc_int ;;
  match lei_to_u64 l with Some n => pret n | None => pfail EConstraint end.
(** the idiom [read_len_enc_str()?.into_bytes().ok_or_else(ConstraintError)?],
    packet.rs:123-125 and 132-135 *)
Definition read_les_bytes : parser bytes :=
  s <- read_len_enc_str ;;
  match les_bytes s with Some bs => pret bs | None => pfail EConstraint end.

(** packet.rs:97-149 *)
Definition read_ok_packet (cap : N) : parser ok_packet :=
  header <- read_u8 ;;
  affected <- read_lei_u64 ;;
  insert_id <- read_lei_u64 ;;
  status <- (if contains cap PROTOCOL_41 || contains cap TRANSACTIONS
             then (s <- read_le_u16 ;; status_from_bits s) else pret 0) ;;
  warnings <- (if contains cap PROTOCOL_41 then read_le_u16 else pret 0) ;;
  info <- (if contains cap SESSION_TRACK then read_les_bytes else read_rest) ;;
  state <- (if contains cap SESSION_TRACK && contains status SESSION_STATE_CHANGED
            then read_les_bytes else pret []) ;;
  pret (mk_ok header affected insert_id status warnings info state).

(** packet.rs:155-165 *)
Record err_packet := mk_err {
  er_header : N; er_code : N; er_marker : N; er_state : bytes; er_message : bytes }.
(** packet.rs:168-194 *)
Definition read_err_packet (cap : N) (sql : bool) : parser err_packet :=
  header <- read_u8 ;;
  code <- read_le_u16 ;;
  '(marker, state) <- (if sql && contains cap PROTOCOL_41
                       then (m <- read_u8 ;; s <- read_len 5 ;; pret (m, s))
                       else pret (0, [])) ;;
  msg <- read_rest ;;
  pret (mk_err header code marker state msg).

(** packet.rs:200-207 *)
Record eof_packet := mk_eof { eof_header : N; eof_warnings : N; eof_status : N }.
(** packet.rs:210-225 *)
Definition read_eof_packet (cap : N) : parser eof_packet :=
  header <- read_u8 ;;
  '(w, s) <- (if contains cap PROTOCOL_41
              then (w <- read_le_u16 ;; s <- read_le_u16 ;; s <- status_from_bits s ;; pret (w, s))
              else pret (0, 0)) ;;
  pret (mk_eof header w s).

(** ** handshake.rs *)

(** handshake.rs:8-23 *)
Record initial_handshake := mk_hs {
  hs_protocol_version : N; hs_server_version : bytes; hs_connection_id : N;
  hs_auth_data_1 : bytes; hs_charset : N; hs_status : N; hs_capabilities : N;
  hs_auth_len : N; hs_auth_data_2 : bytes; hs_plugin : bytes }.

(** handshake.rs:25-67.  [auth_plugin_data_length - 8] is a u8 subtraction. *)
Definition read_initial_handshake : parser initial_handshake :=
  version <- read_u8 ;;
  server_version <- read_until x00 false ;;
  connection_id <- read_le_u32 ;;
  data_1 <- read_len 8 ;;
  _ <- read_len 1 ;;
  cap_lower <- read_le_u16 ;;
  charset <- read_u8 ;;
  status <- read_le_u16 ;;
  cap_upper <- read_le_u16 ;;
  auth_len <- read_u8 ;;
  _ <- read_len 10 ;;
  let capabilities := N.lor cap_lower (N.shiftl cap_upper 16) in
  let cap := from_bits_truncate all_capabilities capabilities in
  data_2 <- (if contains cap SECURE_CONNECTION
             then (d <- plift (csub auth_len 8) ;; read_len (N.max 13 d))
             else pret []) ;;
  plugin <- (if contains cap PLUGIN_AUTH
             then (apn <- read_until x00 false ;; plift (from_utf8 apn))
             else pret []) ;;
  pret (mk_hs version server_version connection_id data_1 charset status capabilities auth_len data_2 plugin).

(** handshake.rs:166-170 *)
Record connect_attr := mk_attr { at_key : bytes; at_value : bytes }.
(** handshake.rs:74-89 *)
Record handshake_response := mk_hr {
  hr_cap : N; hr_max_packet : N; hr_charset : N; hr_username : bytes; hr_auth : bytes;
  hr_database : bytes; hr_plugin : bytes; hr_attrs : list connect_attr }.

(** handshake.rs:145-161 *)
Definition default_response : handshake_response := mk_hr default_capabilities 0xffffff 33 [] [] [] [] [].
(** handshake.rs:125-132 *)
Definition attrs_bytes (attrs : list connect_attr) : bytes :=
  flat_map (fun a =>
    lei_write (lei_from (blen (at_key a))) ++ at_key a ++
    lei_write (lei_from (blen (at_value a))) ++ at_value a) attrs.

(** handshake.rs:91-143 *)
Definition write_handshake_response (r : handshake_response) : bytes :=
  write_le_u32 (hr_cap r) ++
  write_le_u32 (hr_max_packet r) ++
  write_u8 (hr_charset r) ++
  repeat x00 23 ++
  hr_username r ++ write_u8 0 ++
  lei_write (lei_from (blen (hr_auth r))) ++ hr_auth r ++
  (if contains (hr_cap r) CONNECT_WITH_DB then hr_database r ++ write_u8 0 else []) ++
  (if contains (hr_cap r) PLUGIN_AUTH then hr_plugin r ++ write_u8 0 else []) ++
  (if contains (hr_cap r) CONNECT_ATTRS
   then let lb := attrs_bytes (hr_attrs r) in lei_write (lei_from (blen lb)) ++ lb
   else []).

(** handshake.rs:172-179 *)
Record auth_switch := mk_switch { sw_header : N; sw_plugin : bytes; sw_data : bytes }.
(** handshake.rs:181-199 *)
Definition read_auth_switch : parser auth_switch :=
  header <- read_u8 ;;
  if negb (header =? 0xfe) then pfail EConstraint
  else
    name <- read_until x00 false ;;
    data <- read_rest ;;
    name <- plift (from_utf8 name) ;;
    pret (mk_switch header name data).

(** handshake.rs:201-205 *)
Record auth_more := mk_more { am_header : N; am_data : bytes }.
(** handshake.rs:207-222 *)
Definition read_auth_more : parser auth_more :=
  header <- read_u8 ;;
  if negb (header =? 0x01) then pfail EConstraint
  else data <- read_rest ;; pret (mk_more header data).

(** packet.rs:41-46 *)
Inductive handshake_message :=
| HmOk (p : ok_packet) | HmErr (p : err_packet) | HmSwitch (p : auth_switch) | HmMore (p : auth_more).

(** packet.rs:48-73 *)
Definition read_handshake_message (cap : N) : parser handshake_message := fun bs =>
  match bs with
  | [] => (Err (EIncomplete None), bs)
  | b :: _ =>
    (if b2n b =? 0x00 then pmap HmOk (read_ok_packet cap)
     else if b2n b =? 0x01 then pmap HmMore read_auth_more
     else if b2n b =? 0xff then pmap HmErr (read_err_packet cap false)
     else if b2n b =? 0xfe then pmap HmSwitch read_auth_switch
     else pfail EConstraint) bs
  end.

(** ** resp.rs:6-30 *)
Inductive com_response := CrOk (p : ok_packet) | CrErr (p : err_packet).
Definition read_com_response (cap : N) : parser com_response := fun bs =>
  match bs with
  | [] => (Err (EIncomplete None), bs)
  | b :: _ =>
    (if b2n b =? 0x00 then pmap CrOk (read_ok_packet cap)
     else if b2n b =? 0xff then pmap CrErr (read_err_packet cap true)
     else pfail EConstraint) bs
  end.

(** mybin-async/src/error.rs:33-51 *)
Definition error_of_err_packet (e : err_packet) : error :=
  match from_utf8 (er_state e) with
  | Ok state =>
    match from_utf8 (er_message e) with
    | Ok msg => ESql (er_code e) (n2b (er_marker e)) state msg
    | _ => EUtf8
    end
  | _ => EUtf8
  end.
