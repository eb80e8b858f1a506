(** * Independent specification: which bytes a decoder takes for which value

    Layouts are lists of fields, from the MySQL protocol documentation.  Where the library is more
    tolerant than a server ever needs (length encodings longer than necessary, bytes nobody looks
    at, leftovers), the layout says so. *)
From Verif Require Import Model.Base Model.LenEnc Model.Utf8 Model.Packet Model.Cmd Model.Time Model.Col Model.Stmt Model.Event Model.EventBody
  Model.Rows Model.Session Spec.Nums Spec.LenEncSpec Spec.Wire Spec.Packets Spec.BinlogSpec Spec.BitmapSpec Spec.Values.
Open Scope N_scope.

(** ** What is claimed of a decoder *)

(** [p] takes [bs] for [v] and stops before [rest] exactly if the part before [rest] has the layout of [v] *)
Definition takes_exactly {A} (p : parser A) (layout : A -> bytes -> Prop) : Prop :=
  forall bs v rest, p bs = (Ok v, rest) <-> exists w, bs = w ++ rest /\ layout v w.
(** [p] takes the message for [v] exactly if the whole message has the layout of [v] *)
Definition takes_message {A} (p : parser A) (layout : A -> bytes -> Prop) : Prop :=
  forall msg v, fst (p msg) = Ok v <-> layout v msg.

(** ** Layouts *)

(** one field after the other *)
Inductive fields : list (bytes -> Prop) -> bytes -> Prop :=
| no_field : fields [] []
| one_more (f : bytes -> Prop) fs w ws : f w -> fields fs ws -> fields (f :: fs) (w ++ ws).

(** these bytes; [k] bytes nobody looks at; bytes nobody looks at *)
Definition exactly (s w : bytes) : Prop := w = s.
Definition any (k : nat) (w : bytes) : Prop := length w = k.
Definition leftover (w : bytes) : Prop := True.
(** a string up to the next NUL; after a length encoded integer *)
Definition cstring (s w : bytes) : Prop := no_nul s /\ w = s ++ [x00].
Definition lstring (s w : bytes) : Prop := exists l, lenenc_any (N.of_nat (length s)) l /\ w = l ++ s.
(** a length encoded string with the two special markers read as the empty string *)
Definition lstring_or_mark (s w : bytes) : Prop := lstring s w \/ s = [] /\ (w = [xfb] \/ w = [xff]).
(** a length encoded integer, or one of the markers for NULL and an error *)
Definition any_lenenc (w : bytes) : Prop := (exists n, lenenc_any n w) \/ w = [xfb] \/ w = [xff].
(** present only if [b], otherwise the value is the default *)
Definition only_if {A} (b : bool) (field : A -> bytes -> Prop) (default v : A) (w : bytes) : Prop :=
  if b then field v w else w = [] /\ v = default.
(** one byte *)
Definition byte1 : N -> bytes -> Prop := is_le 1.

(** ** Integers and strings *)
Definition lei_layout (l : len_enc_int) (w : bytes) : Prop :=
  match l with
  | LeiNull => w = [xfb]
  | LeiErr => w = [xff]
  | Len1 n => n < 251 /\ byte1 n w
  | Len3 n => fields [exactly [xfc]; is_le 2 n] w
  | Len4 n => fields [exactly [xfd]; is_le 3 n] w
  | Len9 n => fields [exactly [xfe]; is_le 8 n] w
  end.
Definition les_layout (l : len_enc_str) (w : bytes) : Prop :=
  match l with LesNull => w = [xfb] | LesErr => w = [xff] | LesBytes s => lstring s w end.

(** ** Packets *)
Definition packet_layout (p : packet) : bytes -> Prop := fun w =>
  p_len p = N.of_nat (length (p_payload p)) /\
  fields [is_le 3 (p_len p); byte1 (p_seq p); exactly (p_payload p)] w.

(** the status word is one of 15 bits *)
Definition known_status (s : N) : Prop := s < 2 ^ 15.
Definition ok_layout (cap : N) (p : ok_packet) : bytes -> Prop := fun w =>
  known_status (ok_status p) /\
  fields [byte1 (ok_header p); lenenc_any (ok_affected_rows p); lenenc_any (ok_last_insert_id p);
          only_if (cap_protocol_41 cap || cap_transactions cap) (is_le 2) 0 (ok_status p);
          only_if (cap_protocol_41 cap) (is_le 2) 0 (ok_warnings p);
          if cap_session_track cap then lstring (ok_info p) else exactly (ok_info p);
          only_if (cap_session_track cap && status_session_changed (ok_status p)) lstring [] (ok_session_state p);
          if cap_session_track cap then leftover else exactly []] w.
Definition err_layout (cap : N) (sql : bool) (p : err_packet) : bytes -> Prop := fun w =>
  fields [byte1 (er_header p); is_le 2 (er_code p);
          only_if (sql && cap_protocol_41 cap) byte1 0 (er_marker p);
          only_if (sql && cap_protocol_41 cap) (fun s w => any 5 s /\ exactly s w) [] (er_state p);
          exactly (er_message p)] w.
Definition eof_layout (cap : N) (p : eof_packet) : bytes -> Prop := fun w =>
  known_status (eof_status p) /\
  fields [byte1 (eof_header p);
          only_if (cap_protocol_41 cap) (is_le 2) 0 (eof_warnings p);
          only_if (cap_protocol_41 cap) (is_le 2) 0 (eof_status p)] w.

(** the lengths of a greeting's parts fit its capabilities *)
Definition greeting_consistent (h : initial_handshake) : Prop :=
  let cap := hs_capabilities h in
  cap < 2 ^ 32 /\
  (if cap_secure_connection cap
   then 8 <= hs_auth_len h /\ N.of_nat (length (hs_auth_data_2 h)) = N.max 13 (hs_auth_len h - 8)
   else hs_auth_data_2 h = []) /\
  (if cap_plugin_auth cap then utf8_valid (hs_plugin h) = true else hs_plugin h = []) /\
  length (hs_auth_data_1 h) = 8%nat.
(** the two halves of the capabilities come apart *)
Definition greeting_layout (h : initial_handshake) : bytes -> Prop := fun w =>
  let cap := hs_capabilities h in
  greeting_consistent h /\
  fields [byte1 (hs_protocol_version h); cstring (hs_server_version h); is_le 4 (hs_connection_id h);
          exactly (hs_auth_data_1 h); any 1; is_le 2 (cap mod 2 ^ 16); byte1 (hs_charset h); is_le 2 (hs_status h);
          is_le 2 (cap / 2 ^ 16); byte1 (hs_auth_len h); any 10; exactly (hs_auth_data_2 h);
          if cap_plugin_auth cap then cstring (hs_plugin h) else exactly []] w.

Definition switch_layout (p : auth_switch) : bytes -> Prop := fun w =>
  sw_header p = 0xfe /\ utf8_valid (sw_plugin p) = true /\
  fields [exactly [xfe]; cstring (sw_plugin p); exactly (sw_data p)] w.
Definition more_layout (p : auth_more) : bytes -> Prop := fun w =>
  am_header p = 0x01 /\ fields [exactly [x01]; exactly (am_data p)] w.

(** a message is what its first byte announces *)
Definition starts_with (b : byte) (w : bytes) : Prop := exists w', w = b :: w'.
Definition handshake_message_layout (cap : N) (m : handshake_message) (w : bytes) : Prop :=
  match m with
  | HmOk p => starts_with x00 w /\ ok_layout cap p w
  | HmMore p => more_layout p w
  | HmErr p => starts_with xff w /\ err_layout cap false p w
  | HmSwitch p => switch_layout p w
  end.
Definition com_response_layout (cap : N) (m : com_response) (w : bytes) : Prop :=
  match m with
  | CrOk p => starts_with x00 w /\ ok_layout cap p w
  | CrErr p => starts_with xff w /\ err_layout cap true p w
  end.
Definition change_user_layout (cap : N) (m : change_user_response) (w : bytes) : Prop :=
  match m with
  | CuOk p => starts_with x00 w /\ ok_layout cap p w
  | CuMore p => more_layout p w
  | CuErr p => starts_with xff w /\ err_layout cap true p w
  | CuSwitch p => switch_layout p w
  end.

(** ** Column definitions, prepared statements *)
Definition coldef_layout (with_default : bool) (d : column_def) : bytes -> Prop := fun w =>
  Forall (fun s => utf8_valid s = true)
    [cd_catalog d; cd_schema d; cd_table d; cd_org_table d; cd_name d; cd_org_name d; cd_default d] /\
  fields [lstring_or_mark (cd_catalog d); lstring_or_mark (cd_schema d); lstring_or_mark (cd_table d);
          lstring_or_mark (cd_org_table d); lstring_or_mark (cd_name d); lstring_or_mark (cd_org_name d);
          any_lenenc; is_le 2 (cd_charset d); is_le 4 (cd_col_len d); byte1 (column_type_code (cd_type d)); is_le 2 (cd_flags d);
          byte1 (cd_decimals d); any 2; only_if with_default lstring_or_mark [] (cd_default d)] w.
Definition prepare_ok_layout (p : stmt_prepare_ok) : bytes -> Prop := fun w =>
  spo_status p = 0 /\
  fields [exactly [x00]; is_le 4 (spo_stmt_id p); is_le 2 (spo_n_cols p); is_le 2 (spo_n_params p); any 1;
          is_le 2 (spo_n_warnings p)] w.
(** a field list is answered with definitions, of which none is that of a catalogue name of 2^24
    or more bytes or an erroneous one *)
Definition field_list_layout (cap : N) (sql : bool) (m : field_list_response) (w : bytes) : Prop :=
  match m with
  | FlErr p => starts_with xff w /\ err_layout cap sql p w
  | FlEof p => starts_with xfe w /\ fields [eof_layout cap p; leftover] w
  | FlColDef d => ~ starts_with xff w /\ ~ starts_with xfe w /\ fields [coldef_layout true d; leftover] w
  end.
Definition debug_layout (cap : N) (m : debug_response) (w : bytes) : Prop :=
  match m with
  | DbEof p => starts_with xfe w /\ fields [eof_layout cap p; leftover] w
  | DbErr p => starts_with xff w /\ err_layout cap true p w
  end.
Definition set_option_layout (cap : N) (m : set_option_response) (w : bytes) : Prop :=
  match m with
  | SoEof p => starts_with xfe w /\ fields [eof_layout cap p; leftover] w
  | SoErr p => starts_with xff w /\ err_layout cap true p w
  end.

(** ** Rows *)
Definition text_value_layout (c : option bytes) (w : bytes) : Prop :=
  match c with None => w = [xfb] | Some s => lstring s w end.
Definition text_row_layout (n : N) (cs : list (option bytes)) (w : bytes) : Prop :=
  N.of_nat (length cs) = n /\ 32 * n < 2 ^ 63 /\ fields (map text_value_layout cs) w.

(** a sign byte is negative if it is 1 *)
Definition sign_layout (neg : bool) (w : bytes) : Prop := exists n, byte1 n w /\ neg = (n =? 1).
Definition date_layout (y m d : N) : list (bytes -> Prop) := [is_le 2 y; byte1 m; byte1 d].
Definition clock_layout (h m s : N) : list (bytes -> Prop) := [byte1 h; byte1 m; byte1 s].
Inductive binary_value_layout : column_type -> binary_value -> bytes -> Prop :=
| bl_tiny n w : byte1 n w -> binary_value_layout TTiny (BTiny n) w
| bl_short n w : is_le 2 n w -> binary_value_layout TShort (BShort n) w
| bl_year n w : is_le 2 n w -> binary_value_layout TYear (BYear n) w
| bl_long n w : is_le 4 n w -> binary_value_layout TLong (BLong n) w
| bl_int24 n w : is_le 4 n w -> binary_value_layout TInt24 (BInt24 n) w
| bl_longlong n w : is_le 8 n w -> binary_value_layout TLongLong (BLongLong n) w
| bl_float n w : is_le 4 n w -> binary_value_layout TFloat (BFloat n) w
| bl_double n w : is_le 8 n w -> binary_value_layout TDouble (BDouble n) w
| bl_null : binary_value_layout TNull BNull []
| bl_string ct wrap s w : string_kind ct = Some wrap -> lstring s w -> binary_value_layout ct (wrap s) w
| bl_string_null ct wrap : string_kind ct = Some wrap -> binary_value_layout ct BNull [xfb]
| bl_date0 : binary_value_layout TDate (BDate 0 0 0) [x00]
| bl_date4 y m d w : fields (exactly [x04] :: date_layout y m d) w -> binary_value_layout TDate (BDate y m d) w
| bl_time0 ct : is_time ct = true -> binary_value_layout ct (BTime (mk_time false 0 0 0 0 0)) [x00]
| bl_time8 ct neg days h m s w : is_time ct = true ->
    fields (exactly [x08] :: sign_layout neg :: is_le 4 days :: clock_layout h m s) w ->
    binary_value_layout ct (BTime (mk_time neg days h m s 0)) w
| bl_time12 ct neg days h m s us w : is_time ct = true ->
    fields (exactly [x0c] :: sign_layout neg :: is_le 4 days :: clock_layout h m s ++ [is_le 4 us]) w ->
    binary_value_layout ct (BTime (mk_time neg days h m s us)) w
| bl_dt0 ct : is_datetime ct = true -> binary_value_layout ct (BDateTime (mk_dt 0 0 0 0 0 0 0)) [x00]
| bl_dt4 ct y m d w : is_datetime ct = true -> fields (exactly [x04] :: date_layout y m d) w ->
    binary_value_layout ct (BDateTime (mk_dt y m d 0 0 0 0)) w
| bl_dt7 ct y m d h mi s w : is_datetime ct = true ->
    fields (exactly [x07] :: date_layout y m d ++ clock_layout h mi s) w ->
    binary_value_layout ct (BDateTime (mk_dt y m d h mi s 0)) w
| bl_dt11 ct y m d h mi s us w : is_datetime ct = true ->
    fields (exactly [x0b] :: date_layout y m d ++ clock_layout h mi s ++ [is_le 4 us]) w ->
    binary_value_layout ct (BDateTime (mk_dt y m d h mi s us)) w.
(** the columns of a row: a NULL according to the bitmap takes no bytes *)
Inductive columns_layout (null : nat -> bool) : nat -> list column_type -> list binary_value -> bytes -> Prop :=
| cl_nil i : columns_layout null i [] [] []
| cl_null i ct cts vs w : null i = true -> columns_layout null (S i) cts vs w ->
    columns_layout null i (ct :: cts) (BNull :: vs) w
| cl_value i ct cts v vs w1 w : null i = false -> binary_value_layout ct v w1 -> columns_layout null (S i) cts vs w ->
    columns_layout null i (ct :: cts) (v :: vs) (w1 ++ w).
(** the first byte is not looked at; bit [i + 2] of the bitmap stands for column [i] *)
Definition binary_row_layout (cts : list column_type) (vs : list binary_value) (w : bytes) : Prop :=
  exists bitmap, length bitmap = ((length cts + 9) / 8)%nat /\
  fields [any 1; exactly bitmap; columns_layout (fun i => bit bitmap (i + 2)) 0 cts vs] w.
