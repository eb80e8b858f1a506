(** C20-C24: values and rows of the binary and text protocols.
    Specifications: Spec/Values.v (rows and values a server sends) and Spec/Execute.v
    (how a server reads COM_STMT_EXECUTE). *)
From Coq Require Import Strings.String.
From Verif Require Import Model.Base Model.Auth Model.Time Model.Col Model.Row Model.Stmt
  Spec.Wire Spec.BitmapSpec Spec.Packets Spec.Values Spec.Execute
  Proofs.BaseLemmas Proofs.ValueProofs Proofs.ExecuteProofs.
Open Scope N_scope.

(** ** C20: COM_STMT_EXECUTE *)
Theorem C20_execute_request : forall id args, id < 2 ^ 32 -> Forall arg_ok args ->
  server_execute (length args) (write_stmt_execute id (map to_col args))
  = Some (mk_ex id 0 1 (map arg_value args)).
Proof. exact execute_request. Qed.
Print Assumptions C20_execute_request.

(** Finding: a string of exactly 251 bytes makes the request unreadable. *)
Theorem C20_string_251_refuted : forall id s, id < 2 ^ 32 -> N.of_nat (length s) = 251 ->
  server_execute 1 (write_stmt_execute id [to_col (AString s)]) = None.
Proof. exact string_251_request. Qed.
Print Assumptions C20_string_251_refuted.

(** Finding: a value built with [new_timestamp] arrives without its microseconds. *)
Theorem C20_timestamp_fraction_refuted : forall t rest,
  date_fields_ok (ndt_date t) -> clock_ok (ndt_time t) ->
  dvalue (column_type_code (sv_type (new_timestamp t))) (sv_unsigned (new_timestamp t))
    (write_binary_value (sv_val (new_timestamp t)) ++ rest)
  = Some (VDateTime (nd_year (ndt_date t)) (nd_month (ndt_date t)) (nd_day (ndt_date t))
      (nt_hour (ndt_time t)) (nt_minute (ndt_time t)) (nt_second (ndt_time t)) 0, rest).
Proof. exact new_timestamp_value. Qed.
Print Assumptions C20_timestamp_fraction_refuted.

Example C20_example : server_execute 4
    (write_stmt_execute 7 (map to_col
       [AI32 (-2)%Z; ANull; AString (str "a"); AMyTime (mk_time true 1 2 3 4 5)]))
  = Some (mk_ex 7 0 1 [VInt (-2)%Z; VNull; VBytes (str "a"); VTime true 1 2 3 4 5]).
Proof.
  apply (C20_execute_request 7 [AI32 (-2)%Z; ANull; AString (str "a"); AMyTime (mk_time true 1 2 3 4 5)]); [reflexivity|].
  repeat constructor; cbn; discriminate.
Qed.
Example C20_example_251 : exists s : bytes, N.of_nat (length s) = 251.
Proof. exists (repeat x61 251). reflexivity. Qed.

(** ** C21: type codes *)
Theorem C21_round_trip : forall ct, column_type_of (column_type_code ct) = Ok ct.
Proof. exact column_type_round_trip. Qed.
Print Assumptions C21_round_trip.

Theorem C21_decode_exact : forall n ct, column_type_of n = Ok ct -> n = column_type_code ct.
Proof. exact column_type_of_inv. Qed.
Print Assumptions C21_decode_exact.

Theorem C21_unknown_rejected : forall n, (forall ct, n <> column_type_code ct) -> column_type_of n = Err EConstraint.
Proof. exact column_type_of_unknown. Qed.
Print Assumptions C21_unknown_rejected.

Theorem C21_one_byte : forall ct, column_type_code ct < 256.
Proof. exact column_type_code_lt. Qed.
Print Assumptions C21_one_byte.

(** the numbers of [enum_field_types] *)
Theorem C21_protocol_codes :
  map column_type_code [TDecimal; TTiny; TShort; TLong; TFloat; TDouble; TNull; TTimestamp; TLongLong; TInt24;
    TDate; TTime; TDateTime; TYear; TVarchar; TBit; TTimestamp2; TDateTime2; TTime2]
  = [0; 1; 2; 3; 4; 5; 6; 7; 8; 9; 10; 11; 12; 13; 15; 16; 17; 18; 19] /\
  map column_type_code [TNewDecimal; TTinyBlob; TMediumBlob; TLongBlob; TBlob; TVarString; TString; TGeometry]
  = [246; 249; 250; 251; 252; 253; 254; 255].
Proof. exact (conj eq_refl eq_refl). Qed.
Print Assumptions C21_protocol_codes.

(** the protocol types the library rejects: NEWDATE, JSON, ENUM, SET *)
Theorem C21_unsupported_codes : forall n, In n [14; 245; 247; 248] -> column_type_of n = Err EConstraint.
Proof.
  exact (fun n H => match H with
    | or_introl e => eq_ind 14 (fun n => column_type_of n = Err EConstraint) eq_refl n e
    | or_intror (or_introl e) => eq_ind 245 (fun n => column_type_of n = Err EConstraint) eq_refl n e
    | or_intror (or_intror (or_introl e)) => eq_ind 247 (fun n => column_type_of n = Err EConstraint) eq_refl n e
    | or_intror (or_intror (or_intror (or_introl e))) => eq_ind 248 (fun n => column_type_of n = Err EConstraint) eq_refl n e
    | or_intror (or_intror (or_intror (or_intror f))) => False_ind _ f
    end).
Qed.
Print Assumptions C21_unsupported_codes.

Example C21_example : column_type_of 0xfe = Ok TString /\ column_type_of 0x14 = Err EConstraint.
Proof.
  split; [exact (C21_round_trip TString)|]. apply C21_unknown_rejected. intros []; discriminate.
Qed.

(** ** C22: values *)
(** what the library writes is read back *)
Theorem C22_round_trip : forall ct v rest, value_of_type ct v ->
  read_binary_value ct (write_binary_value v ++ rest) = (Ok v, rest).
Proof. exact value_round_trip. Qed.
Print Assumptions C22_round_trip.

(** what it writes is a protocol encoding of the value, and every protocol encoding is read *)
Theorem C22_written_form : forall ct v, value_of_type ct v -> wire_value ct v (write_binary_value v).
Proof. exact write_value_wire. Qed.
Print Assumptions C22_written_form.

Theorem C22_server_form : forall ct v w rest, wire_value ct v w -> read_binary_value ct (w ++ rest) = (Ok v, rest).
Proof. exact read_wire_value. Qed.
Print Assumptions C22_server_form.

(** a temporal value of a length the protocol does not know is an error *)
Theorem C22_bad_length : forall ct l rest, l < 256 ->
  (ct = TDate /\ l <> 0 /\ l <> 4) \/
  (is_time ct = true /\ l <> 0 /\ l <> 8 /\ l <> 12) \/
  (is_datetime ct = true /\ l <> 0 /\ l <> 4 /\ l <> 7 /\ l <> 11) ->
  read_binary_value ct (n2b l :: rest) = (Err EConstraint, rest).
Proof. exact temporal_bad_length. Qed.
Print Assumptions C22_bad_length.

(** Findings: the exceptions to the round trip *)
Theorem C22_timestamp_refuted : forall ct y mo d h m s us rest, is_datetime ct = true ->
  datetime_fields_ok (mk_dt y mo d h m s us) ->
  read_binary_value ct (write_binary_value (BTimestamp (mk_dt y mo d h m s us)) ++ rest)
  = (Ok (BDateTime (mk_dt y mo d h m s 0)), rest).
Proof. exact timestamp_read_back. Qed.
Print Assumptions C22_timestamp_refuted.

Theorem C22_string_251_refuted : forall ct wrap s rest, string_kind ct = Some wrap -> N.of_nat (length s) = 251 ->
  read_binary_value ct (write_binary_value (wrap s) ++ rest) = (Ok BNull, s ++ rest).
Proof. exact string_251_read_back. Qed.
Print Assumptions C22_string_251_refuted.

Theorem C22_minus_zero_refuted : forall ct rest, is_time ct = true ->
  read_binary_value ct (write_binary_value (BTime (mk_time true 0 0 0 0 0)) ++ rest)
  = (Ok (BTime (mk_time false 0 0 0 0 0)), rest).
Proof. exact minus_zero_read_back. Qed.
Print Assumptions C22_minus_zero_refuted.

Example C22_example : read_binary_value TDateTime
    (write_binary_value (BDateTime (mk_dt 2020 12 31 23 59 59 0)) ++ [x01]) = (Ok (BDateTime (mk_dt 2020 12 31 23 59 59 0)), [x01])
  /\ read_binary_value TTime (x09 :: [x01]) = (Err EConstraint, [x01]).
Proof.
  split; [apply C22_round_trip; cbn; repeat split|].
  apply (C22_bad_length TTime 9 [x01]); [reflexivity|]. right; left. repeat split; discriminate.
Qed.

(** ** C23: binary rows *)
Theorem C23_row : forall cts vs w rest, wire_row cts vs w -> read_binary_row cts (w ++ rest) = (Ok vs, rest).
Proof. exact read_row. Qed.
Print Assumptions C23_row.

(** every list of typed values and NULLs has such an encoding *)
Theorem C23_row_exists : forall cts vs, Forall2 null_or_value cts vs -> exists w, wire_row cts vs w.
Proof. exact wire_row_exists. Qed.
Print Assumptions C23_row_exists.

Example C23_example : exists w, wire_row [TLong; TVarString; TTime] [BLong 5; BNull; BTime (mk_time true 0 1 2 3 0)] w.
Proof.
  apply C23_row_exists. constructor; [right; cbn; repeat split|]. constructor; [left; reflexivity|].
  constructor; [right; cbn; repeat split; discriminate|constructor].
Qed.

(** ** C24: text rows *)
(** the column count is bounded by what a vector of columns can hold *)
Theorem C24_row : forall cs rest, N.of_nat (length cs) < 2 ^ 58 ->
  Forall (fun c => match c with Some s => N.of_nat (length s) < 2 ^ 64 | None => True end) cs ->
  read_text_row (N.of_nat (length cs)) (text_row cs ++ rest) = (Ok cs, rest).
Proof. exact read_text_row_wire. Qed.
Print Assumptions C24_row.

Example C24_example :
  read_text_row 3 ([x02; x34; x32; xfb; x00] ++ [x09]) = (Ok [Some [x34; x32]; None; Some []], [x09]).
Proof. apply (C24_row [Some [x34; x32]; None; Some []] [x09]); [reflexivity|]. repeat constructor. Qed.
