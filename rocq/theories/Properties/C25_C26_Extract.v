(** C25, C26: extracting typed values from rows, finding columns.
    Columns and numbers: Spec/ExtractSpec.v, Spec/Values.v. *)
From Coq Require Import Strings.String Lia.
From Verif Require Import Model.Base Model.Auth Model.Utf8 Model.Time Model.Col Model.Extract
  Spec.Wire Spec.Temporal Spec.Packets Spec.Values Spec.ExtractSpec Proofs.ExtractProofs.
Open Scope N_scope.

(** *** C25 *)
(** binary rows, signed integers: the number for a wide enough target, else a type error *)
Theorem C25_signed : forall bits f t z bs rest, In (bits, f) signed_targets -> t <> IMedium -> signed_cell t z bs ->
  extract (int_ct t) f (bs ++ rest) = if int_bits t <=? bits then Ok (Some z) else Err EColType.
Proof. exact signed_extract. Qed.
Print Assumptions C25_signed.
(** the same for unsigned columns and targets *)
Theorem C25_unsigned : forall bits f t n bs rest, In (bits, f) unsigned_targets -> t <> IMedium -> unsigned_cell t n bs ->
  extract (int_ct t) f (bs ++ rest) = if int_bits t <=? bits then Ok (Some n) else Err EColType.
Proof. exact unsigned_extract. Qed.
Print Assumptions C25_unsigned.
(** MEDIUMINT and narrower with the 24 bit targets *)
Theorem C25_medium : forall t, int_bits t <= 24 ->
  (forall z bs rest, signed_cell t z bs -> extract (int_ct t) i24_from_binary (bs ++ rest) = Ok (Some z)) /\
  (forall n bs rest, unsigned_cell t n bs -> extract (int_ct t) u24_from_binary (bs ++ rest) = Ok (Some n)).
Proof. exact medium_extract. Qed.
Print Assumptions C25_medium.
(** the columns each target takes: every other column is a type error *)
Theorem C25_mismatch : forall ct v w rest, wire_value ct v w -> ct <> TNull ->
  (extract ct i8_from_binary (w ++ rest) = Err EColType <-> ~ In ct [TTiny]) /\
  (extract ct u8_from_binary (w ++ rest) = Err EColType <-> ~ In ct [TTiny]) /\
  (extract ct i16_from_binary (w ++ rest) = Err EColType <-> ~ In ct [TTiny; TShort]) /\
  (extract ct u16_from_binary (w ++ rest) = Err EColType <-> ~ In ct [TTiny; TShort]) /\
  (extract ct i32_from_binary (w ++ rest) = Err EColType <-> ~ In ct [TTiny; TShort; TLong]) /\
  (extract ct u32_from_binary (w ++ rest) = Err EColType <-> ~ In ct [TTiny; TShort; TLong]) /\
  (extract ct i64_from_binary (w ++ rest) = Err EColType <-> ~ In ct [TTiny; TShort; TLong; TLongLong]) /\
  (extract ct u64_from_binary (w ++ rest) = Err EColType <-> ~ In ct [TTiny; TShort; TLong; TLongLong]) /\
  (extract ct i24_from_binary (w ++ rest) = Err EColType <-> ~ In ct [TTiny; TShort; TInt24]) /\
  (extract ct u24_from_binary (w ++ rest) = Err EColType <-> ~ In ct [TTiny; TShort; TInt24]) /\
  (extract ct bool_from_binary (w ++ rest) = Err EColType <-> ~ In ct [TTiny]) /\
  (extract ct f32_from_binary (w ++ rest) = Err EColType <-> ~ In ct [TFloat]) /\
  (extract ct f64_from_binary (w ++ rest) = Err EColType <-> ~ In ct [TDouble]) /\
  (extract ct year_from_binary (w ++ rest) = Err EColType <-> ~ In ct [TYear]) /\
  (extract ct bit_from_binary (w ++ rest) = Err EColType <-> ~ In ct [TBit]) /\
  (extract ct bytes_from_binary (w ++ rest) = Err EColType <->
     ~ In ct [TTinyBlob; TMediumBlob; TLongBlob; TBlob; TVarchar; TVarString; TString; TGeometry]) /\
  (extract ct string_from_binary (w ++ rest) = Err EColType <->
     ~ In ct [TTinyBlob; TMediumBlob; TLongBlob; TBlob; TVarchar; TVarString; TString]) /\
  (extract ct time_from_binary (w ++ rest) = Err EColType <-> ~ In ct [TTime; TTime2]) /\
  (extract ct date_from_binary (w ++ rest) = Err EColType <-> ~ In ct [TDate]) /\
  (extract ct naive_datetime_from_binary (w ++ rest) = Err EColType <->
     ~ In ct [TTimestamp; TTimestamp2; TDateTime; TDateTime2]).
Proof. exact mismatch. Qed.
Print Assumptions C25_mismatch.
(** floats (their bits), years, bits, times: unchanged *)
Theorem C25_plain : forall rest,
  (forall n, n < 2 ^ 32 -> extract TFloat f32_from_binary (wle 4 n ++ rest) = Ok (Some n)) /\
  (forall n, n < 2 ^ 64 -> extract TDouble f64_from_binary (wle 8 n ++ rest) = Ok (Some n)) /\
  (forall n, n < 2 ^ 16 -> extract TYear year_from_binary (wle 2 n ++ rest) = Ok (Some n)) /\
  (forall s, N.of_nat (length s) < 2 ^ 64 -> extract TBit bit_from_binary (wlstr s ++ rest) = Ok (Some s)) /\
  (forall s, N.of_nat (length s) < 2 ^ 64 -> extract TGeometry bytes_from_binary (wlstr s ++ rest) = Ok (Some s)) /\
  (forall ct t w, wire_value ct (BTime t) w -> extract ct time_from_binary (w ++ rest) = Ok (Some t)).
Proof. exact plain_extract. Qed.
Print Assumptions C25_plain.
(** strings and blobs; text that is not UTF-8 is an error, never changed *)
Theorem C25_strings : forall s ct wrap rest, string_kind ct = Some wrap -> N.of_nat (length s) < 2 ^ 64 ->
  In ct [TTinyBlob; TMediumBlob; TLongBlob; TBlob; TVarchar; TVarString; TString] ->
  extract ct bytes_from_binary (wlstr s ++ rest) = Ok (Some s) /\
  extract ct string_from_binary (wlstr s ++ rest) = if utf8_valid s then Ok (Some s) else Err EUtf8.
Proof. exact string_extract. Qed.
Print Assumptions C25_strings.
(** decimals: the external parser gets exactly the text *)
Theorem C25_decimal : forall V (parse : bytes -> res V) s rest, N.of_nat (length s) < 2 ^ 64 ->
  extract TNewDecimal (decimal_from_binary parse) (wlstr s ++ rest) =
    if utf8_valid s then rmap Some (parse s) else Err EUtf8.
Proof. exact decimal_extract. Qed.
Print Assumptions C25_decimal.
(** dates and date-times that exist *)
Theorem C25_date : forall y m d w rest, wire_value TDate (BDate y m d) w -> real_date y m d ->
  extract TDate date_from_binary (w ++ rest) = Ok (Some (mk_nd y m d)).
Proof. intros y m d w rest W. exact (proj1 (date_extract y m d w rest W)). Qed.
Print Assumptions C25_date.
Theorem C25_datetime : forall ct y m d h mi s us w rest, is_datetime ct = true ->
  wire_value ct (BDateTime (mk_dt y m d h mi s us)) w ->
  real_date y m d -> h < 24 -> mi < 60 -> s < 60 -> us < 1000000 ->
  extract ct naive_datetime_from_binary (w ++ rest) = Ok (Some (mk_ndt (mk_nd y m d) (mk_nt h mi s (us * 1000)))).
Proof. intros ct y m d h mi s us w rest I W. exact (proj1 (naive_datetime_extract ct y m d h mi s us w rest I W)). Qed.
Print Assumptions C25_datetime.
(** finding: a date that does not exist (MySQL's zero dates) panics *)
Theorem C25_date_refuted : forall y m d w rest, wire_value TDate (BDate y m d) w -> ~ real_date y m d ->
  extract TDate date_from_binary (w ++ rest) = Panic PUnwrap.
Proof. intros y m d w rest W. exact (proj2 (date_extract y m d w rest W)). Qed.
Print Assumptions C25_date_refuted.
Theorem C25_datetime_refuted : forall ct y m d h mi s us w rest, is_datetime ct = true ->
  wire_value ct (BDateTime (mk_dt y m d h mi s us)) w -> ~ real_date y m d ->
  extract ct naive_datetime_from_binary (w ++ rest) = Panic PUnwrap.
Proof. intros ct y m d h mi s us w rest I W. exact (proj2 (naive_datetime_extract ct y m d h mi s us w rest I W)). Qed.
Print Assumptions C25_datetime_refuted.
(** finding: the crate's own date-time type cannot be extracted from any binary column *)
Theorem C25_my_datetime_refuted : forall ct v w rest, wire_value ct v w -> ct <> TNull ->
  extract ct datetime_from_binary (w ++ rest) = Err EColType.
Proof. exact my_datetime_never. Qed.
Print Assumptions C25_my_datetime_refuted.
(** it comes only from a timestamp value that the application itself made, and then unchanged *)
Theorem C25_my_datetime_own : forall v t, datetime_from_binary v = Ok (Some t) <-> v = BTimestamp t.
Proof. intros v t. split; [|intros ->; reflexivity]. destruct v; cbn; congruence. Qed.
Print Assumptions C25_my_datetime_own.
(** finding: nothing checks the signedness: an unsigned target gets z + 2^bits for a negative z *)
Theorem C25_sign_refuted : forall bits f t z bs rest, In (bits, f) unsigned_targets -> t <> IMedium ->
  int_bits t <= bits -> signed_cell t z bs -> (z < 0)%Z ->
  exists n, extract (int_ct t) f (bs ++ rest) = Ok (Some n) /\ Z.of_N n = (z + 2 ^ Z.of_N (int_bits t))%Z.
Proof. exact sign_confused_u. Qed.
Print Assumptions C25_sign_refuted.
(** ... and a signed target gets n - 2^bits for a large unsigned n *)
Theorem C25_unsigned_sign_refuted : forall bits f t n bs rest, In (bits, f) signed_targets -> t <> IMedium ->
  int_bits t <= bits -> unsigned_cell t n bs -> 2 ^ (int_bits t - 1) <= n ->
  extract (int_ct t) f (bs ++ rest) = Ok (Some (Z.of_N n - 2 ^ Z.of_N (int_bits t))%Z).
Proof. exact sign_confused_i. Qed.
Print Assumptions C25_unsigned_sign_refuted.
(** booleans: TINYINT 0 and 1; finding: any other number is false *)
Theorem C25_bool : forall n rest, n < 2 ^ 8 ->
  extract TTiny bool_from_binary (wle 1 n ++ rest) = Ok (Some (n =? 1)).
Proof. exact bool_extract. Qed.
Print Assumptions C25_bool.
(** NULL is [None] for every optional target; a non-optional target gives the null error, and
    otherwise what the optional one gives *)
Theorem C25_null :
  i8_from_binary BNull = Ok None /\ u8_from_binary BNull = Ok None /\ i16_from_binary BNull = Ok None /\
  u16_from_binary BNull = Ok None /\ i32_from_binary BNull = Ok None /\ u32_from_binary BNull = Ok None /\
  i64_from_binary BNull = Ok None /\ u64_from_binary BNull = Ok None /\ i24_from_binary BNull = Ok None /\
  u24_from_binary BNull = Ok None /\ bool_from_binary BNull = Ok None /\ f32_from_binary BNull = Ok None /\
  f64_from_binary BNull = Ok None /\ year_from_binary BNull = Ok None /\ bit_from_binary BNull = Ok None /\
  bytes_from_binary BNull = Ok None /\ string_from_binary BNull = Ok None /\ time_from_binary BNull = Ok None /\
  date_from_binary BNull = Ok None /\ naive_datetime_from_binary BNull = Ok None /\
  datetime_from_binary BNull = Ok None /\
  (forall V (parse : bytes -> res V), decimal_from_binary parse BNull = Ok None) /\
  (forall V (parse : bytes -> res V), text_parsed parse None = Ok None) /\
  (forall V (p q : bytes -> res V), naive_datetime_from_text p q None = Ok None) /\
  (forall p q, datetime_from_text_col p q None = Ok None) /\
  bool_from_text None = Ok None /\ bytes_from_text None = Ok None /\ i24_from_text None = Ok None /\
  u24_from_text None = Ok None /\ year_from_text None = Ok None /\ string_from_text None = Ok None /\
  bit_from_text None = Ok None /\ time_from_text_col None = Ok None /\
  (forall C V (f : C -> res (option V)) c, (f c = Ok None -> non_null f c = Err ENull) /\
     (forall v, f c = Ok (Some v) <-> non_null f c = Ok v) /\ (forall e, f c = Err e -> non_null f c = Err e)).
Proof. exact nulls. Qed.
Print Assumptions C25_null.
(** text rows: an integer target accepts exactly the numerals within its range, with their value;
    everything else is an error *)
Theorem C25_text_unsigned : forall k f s, In (k, f) unsigned_text_targets ->
  (forall n, f (Some s) = Ok (Some n) <-> unsigned_text n s /\ n < 2 ^ k) /\
  ((forall n, unsigned_text n s -> 2 ^ k <= n) -> f (Some s) = Err (if utf8_valid s then EParseValue else EUtf8)).
Proof. exact text_unsigned. Qed.
Print Assumptions C25_text_unsigned.
Theorem C25_text_signed : forall k f s, In (k, f) signed_text_targets ->
  (forall z, f (Some s) = Ok (Some z) <-> signed_text z s /\ (- 2 ^ (Z.of_N k - 1) <= z < 2 ^ (Z.of_N k - 1))%Z) /\
  ((forall z, signed_text z s -> (z < - 2 ^ (Z.of_N k - 1) \/ 2 ^ (Z.of_N k - 1) <= z)%Z) ->
     f (Some s) = Err (if utf8_valid s then EParseValue else EUtf8)).
Proof. exact text_signed. Qed.
Print Assumptions C25_text_signed.
(** text rows, other targets: booleans, strings, and what the external parsers are given *)
Theorem C25_text_other : forall s,
  (forall b, bool_from_text (Some s) = Ok (Some b) <-> exists n, unsigned_text n s /\ n < 256 /\ b = (n =? 1)) /\
  bytes_from_text (Some s) = Ok (Some s) /\ bit_from_text (Some s) = Ok (Some s) /\
  string_from_text (Some s) = (if utf8_valid s then Ok (Some s) else Err EUtf8) /\
  (forall V (parse : bytes -> res V), text_parsed parse (Some s) =
     if utf8_valid s then rmap Some (parse s) else Err EUtf8) /\
  (forall V (p q : bytes -> res V) v, utf8_valid s = true ->
     (p s = Ok v -> naive_datetime_from_text p q (Some s) = Ok (Some v)) /\
     (forall e, p s = Err e -> naive_datetime_from_text p q (Some s) = rmap Some (q s))) /\
  (forall p q y m d h mi sec us, utf8_valid s = true ->
     y < 10000 -> m < 13 -> d < 32 -> h < 24 -> mi < 60 -> sec < 60 -> us < 1000000 ->
     (if 19 <? N.of_nat (length s) then q s else p s) = Ok (mk_ndt (mk_nd y m d) (mk_nt h mi sec (us * 1000))) ->
     datetime_from_text_col p q (Some s) = Ok (Some (mk_dt y m d h mi sec us))).
Proof. exact text_other. Qed.
Print Assumptions C25_text_other.

(** *** C26 *)
Theorem C26_by_index : forall C V (from_col : C -> res V) row i,
  get_col from_col row i = match nth_error row i with Some c => from_col c | None => Err EColIndex end.
Proof. exact @get_col_at. Qed.
Print Assumptions C26_by_index.
(** by name, for any lower-casing: an exact match first (the last one if there are several), then a
    match up to case, else an error *)
Theorem C26_by_name : forall C V lower defs (from_col : C -> res V) row name,
  let names := map cd_name defs in
  let get := get_named_col lower (extractor_new lower defs) from_col row name in
  (forall i, last_such (fun s => s = name) names i -> get = get_col from_col row i) /\
  (forall i, ~ In name names -> last_such (fun s => lower s = lower name) names i -> get = get_col from_col row i) /\
  ((forall s, In s names -> lower s <> lower name) -> get = Err EColName).
Proof. exact @named_col. Qed.
Print Assumptions C26_by_name.
(** the usual case: distinct names, a row as wide as the definitions *)
Theorem C26_unique_name : forall C V lower defs (from_col : C -> res V) row i d c,
  NoDup (map cd_name defs) -> nth_error defs i = Some d -> nth_error row i = Some c ->
  get_named_col lower (extractor_new lower defs) from_col row (cd_name d) = from_col c.
Proof. exact @unique_name. Qed.
Print Assumptions C26_unique_name.

(** *** the hypotheses are met *)
Example C25_ex_signed : signed_cell ISmall (-2) (wsle 2 (-2)) /\ In (32, i32_from_binary) signed_targets /\
  extract TShort i32_from_binary (wsle 2 (-2)) = Ok (Some (-2)%Z).
Proof. split; [split; [cbn; lia|reflexivity]|]. split; [cbn; tauto|]. vm_compute. reflexivity. Qed.
Example C25_ex_medium : signed_cell IMedium (-8388608) (wsle 4 (-8388608)) /\
  extract TInt24 i24_from_binary (wsle 4 (-8388608)) = Ok (Some (-8388608)%Z).
Proof. split; [split; [cbn; lia|reflexivity]|]. vm_compute. reflexivity. Qed.
Example C25_ex_dates : real_date 2024 2 29 /\ ~ real_date 2023 2 29 /\ ~ real_date 0 0 0 /\ real_date 2000 12 31.
Proof.
  unfold real_date, leap_year. split; [|split; [|split]].
  - split; [lia|]. split; [lia|]. right; right; right. split; [reflexivity|]. split; [reflexivity|]. right. split; [reflexivity|discriminate].
  - intros (_ & _ & H). decompose [or and] H; try lia; try discriminate; cbn in *; try tauto; try discriminate.
  - intros (H & _). lia.
  - split; [lia|]. split; [lia|]. right; right; left. split; [reflexivity|]. cbn; tauto.
Qed.
Example C25_ex_text : signed_text (-12) (str "-12") /\ i8_from_text (Some (str "-12")) = Ok (Some (-12)%Z) /\
  i8_from_text (Some (str "128")) = Err EParseValue /\ u8_from_text (Some (str "-1")) = Err EParseValue.
Proof.
  split; [|vm_compute; auto]. exists 1%nat, 12, [n2b 45]. split; [reflexivity|]. split; [reflexivity|]. right. auto.
Qed.
Definition ex_def (name : bytes) : column_def := mk_cd [] [] [] [] name [] 0 0 TTiny 0 0 [].
Example C26_ex : NoDup (map cd_name [ex_def (str "id"); ex_def (str "Name")]) /\
  get_named_col (fun s => s) (extractor_new (fun s => s) [ex_def (str "id"); ex_def (str "Name")])
    string_from_text [Some (str "1"); Some (str "x")] (str "Name") = Ok (Some (str "x")).
Proof.
  split; [|vm_compute; reflexivity]. constructor; [|constructor; [|constructor]]; cbn; [|tauto].
  intros [H|[]]. discriminate.
Qed.
