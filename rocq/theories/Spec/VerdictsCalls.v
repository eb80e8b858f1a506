(** * Independent specification: what calls made of several exchanges report of the bytes a server sent *)
From Coq Require Import Strings.String.
From Coq Require Import List NArith Bool.
From Verif Require Import Model.Base Model.Utf8 Model.Conn Model.Packet Model.Auth Model.Col Model.Stmt Model.Extract Model.Event Model.Session Model.Stream
  Spec.Nums Spec.LenEncSpec Spec.Wire Spec.Packets Spec.Framing Spec.ResultSets Spec.HostileExact Spec.Accepts Spec.AcceptsEvents Spec.AcceptsFile Spec.Verdicts.
Import ListNotations.
Open Scope N_scope.

(** one exchange, then another that may depend on it; a refusal of the first one is the end *)
Definition and_then {A B} (one : verdict A -> list bytes -> Prop) (other : A -> verdict B -> list bytes -> Prop) (v : verdict B) (ms : list bytes) : Prop :=
  (exists a ms1 ms2, ms = ms1 ++ ms2 /\ one (Done a) ms1 /\ other a v ms2) \/
  (exists code marker state message, v = Refused code marker state message /\ one (Refused code marker state message) ms).

(** the rows of a query: none without columns *)
Definition says_rows (cap : N) (rows : list (list (option bytes))) (ms : list bytes) : Prop :=
  (rows = [] /\ exists m, ms = [m] /\ (completion cap m \/ column_count 0 m)) \/
  (exists n defs m dms rms, ms = m :: dms ++ rms /\ n <> 0 /\ column_count n m /\ definitions cap n defs dms /\
     rows_reply cap (text_row_layout n) rows rms).
(** the value in column [k] *)
Definition row_value {V} (conversion : option bytes -> res V) (k : nat) (row : list (option bytes)) (x : V) : Prop :=
  exists cell, nth_error row k = Some cell /\ conversion cell = Ok x.
(** a variable: column [k] of the first row, if there is one *)
Definition variable_reply {V} (cap : N) (conversion : option bytes -> res V) (k : nat) (v : verdict (option V)) (ms : list bytes) : Prop :=
  (exists rows o, v = Done o /\ says_rows cap rows ms /\
     match rows with [] => o = None | row :: _ => exists x, o = Some x /\ row_value conversion k row x end) \/ refusal cap v ms.
(** the binlog files of a server: name and size *)
Definition files_reply (cap : N) (v : verdict (list (bytes * N))) (ms : list bytes) : Prop :=
  (exists rows files, v = Done files /\ says_rows cap rows ms /\
     Forall2 (fun row f => (nth_error row 0 = Some (Some (fst f)) /\ utf8_valid (fst f) = true) /\ row_value (non_null u64_from_text) 1 row (snd f)) rows files) \/
  refusal cap v ms.
(** setting a variable: a statement is prepared, executed and closed *)
Definition set_reply (cap : N) : verdict unit -> list bytes -> Prop := and_then (prepare_reply cap) (fun _ => exec_reply cap).

(** ** Requesting a stream *)
(** a variable that must be there *)
Definition required_reply {V} (cap : N) (conversion : option bytes -> res V) (v : verdict V) (ms : list bytes) : Prop :=
  (exists x, v = Done x /\ variable_reply cap conversion 1 (Done (Some x)) ms) \/ refusal cap v ms.
(** the first event names a file; its checksum is not looked at *)
Definition rotate_event (checksum : bool) (w : bytes) : Prop :=
  exists h hw d dw trailer, w = hw ++ dw ++ trailer /\ header_layout h hw /\ h_type h = EtRotate /\ rotate_layout d dw /\
    length trailer = (if checksum then 4 else 0)%nat.
(** nothing to read, a rotation and a description of the format, or ERR *)
Definition start_reply (cap : N) (checksum : bool) (o : binlog_options) (v : verdict binlog_stream) (ms : list bytes) : Prop :=
  (exists m, ms = [m] /\ starts_with xfe m /\ end_of_data cap m /\ v = Done (mk_stream (mk_parser [] false) (bo_validate o) true (bo_non_block o))) \/
  (exists r b d first, ms = [x00 :: r; b :: d] /\ rotate_event checksum r /\
     fields [fun w => exists h, first_event_layout h first w; leftover] d /\
     v = Done (mk_stream (fst first) (bo_validate o) false (bo_non_block o))) \/
  refusal cap v ms.
Definition stream_reply (cap : N) (o : binlog_options) : verdict binlog_stream -> list bytes -> Prop :=
  let text := non_null string_from_text in
  and_then (required_reply cap (non_null u32_from_text)) (fun _ =>
  and_then (set_reply cap) (fun _ =>
  and_then (required_reply cap text) (fun algorithm =>
  and_then (set_reply cap) (fun _ =>
  and_then (required_reply cap text) (fun _ =>
  and_then (required_reply cap text) (fun _ =>
  and_then (set_reply cap) (fun _ =>
  and_then (plain_reply cap) (fun _ v ms =>
    exists checksum : bool, (checksum = true <-> algorithm = str "CRC32") /\ start_reply cap checksum o v ms)))))))).
