(** * Independent specification: what a call reports of the bytes a server sent

    The layouts of single messages are those of Spec/Accepts.v. *)
From Coq Require Import List NArith Bool.
From Verif Require Import Model.Base Model.Utf8 Model.Conn Model.Packet Model.Col Model.Stmt Model.Event Model.Session Model.Stream
  Spec.Nums Spec.LenEncSpec Spec.Wire Spec.Packets Spec.Framing Spec.Programs Spec.ResultSets Spec.HostileExact Spec.Accepts Spec.AcceptsEvents.
Import ListNotations.
Open Scope N_scope.

(** ** Verdicts *)

(** a call is done with a value, or the server refused it with an error of its own *)
Inductive verdict (A : Type) : Type :=
| Done (v : A)
| Refused (code : N) (marker : byte) (state message : bytes).
Arguments Done {A} v.
Arguments Refused {A} code marker state message.
(** how the application learns of it *)
Definition told {A} (r : res A) (v : verdict A) : Prop :=
  match v with
  | Done a => r = Ok a
  | Refused code marker state message => r = Err (ESql code marker state message)
  end.
(** The call on [c] reports [v] and leaves [rest] unread exactly if what arrives is some messages
    that say [v], followed by [rest]. *)
Definition reports {A} (call : io A) (c : conn) (saying : verdict A -> list bytes -> Prop) : Prop :=
  forall v rest, (told (fst (call c)) v /\ arriving (snd (call c)) = rest) <->
    exists msgs w, messages_wire msgs w /\ arriving c = w ++ rest /\ saying v msgs.
(** the same of values only *)
Definition delivers {A} (call : io A) (c : conn) (saying : A -> list bytes -> Prop) : Prop :=
  forall v rest, (fst (call c) = Ok v /\ arriving (snd (call c)) = rest) <->
    exists msgs w, messages_wire msgs w /\ arriving c = w ++ rest /\ saying v msgs.

(** ** Messages under the capabilities agreed upon *)
Section Messages.
  Variable cap : N.

  (** OK; EOF, of which the first byte is not always looked at; ERR, whose texts are UTF-8 *)
  Definition completion (m : bytes) : Prop := starts_with x00 m /\ exists p, ok_layout cap p m.
  Definition end_of_data (m : bytes) : Prop := exists p, fields [eof_layout cap p; leftover] m.
  Definition refusal {A} (v : verdict A) (ms : list bytes) : Prop :=
    exists p m, ms = [m] /\ starts_with xff m /\ err_layout cap true p m /\
    utf8_valid (er_state p) = true /\ utf8_valid (er_message p) = true /\
    v = Refused (er_code p) (n2b (er_marker p)) (er_state p) (er_message p).

  (** ** Commands without a result *)
  (** one message: OK or ERR *)
  Definition plain_reply (v : verdict unit) (ms : list bytes) : Prop :=
    (v = Done tt /\ exists m, ms = [m] /\ completion m) \/ refusal v ms.
  (** EOF or ERR *)
  Definition eof_reply (v : verdict unit) (ms : list bytes) : Prop :=
    (v = Done tt /\ exists m, ms = [m] /\ starts_with xfe m /\ end_of_data m) \/ refusal v ms.
  (** a ping: anything laid out as an OK message, whatever its first byte *)
  Definition ping_reply (v : verdict unit) (ms : list bytes) : Prop :=
    v = Done tt /\ exists m p, ms = [m] /\ ok_layout cap p m.
  (** text *)
  Definition text_reply (v : verdict bytes) (ms : list bytes) : Prop :=
    exists m, ms = [m] /\ utf8_valid m = true /\ v = Done m.
  (** a statement executed for its effect: the first message that is OK or ERR *)
  Definition exec_reply (v : verdict unit) (ms : list bytes) : Prop :=
    exists earlier m, ms = earlier ++ [m] /\ Forall passed_over earlier /\ plain_reply v [m].

  (** ** Definitions of columns *)
  Definition definitions (n : N) (defs : list column_def) (ms : list bytes) : Prop :=
    exists dms ems, ms = dms ++ ems /\ N.of_nat (length defs) = n /\
      Forall2 (fun d m => fields [coldef_layout false d; leftover] m) defs dms /\
      if cap_deprecate_eof cap then ems = [] else exists m, ems = [m] /\ end_of_data m.
  (** nothing at all stands for no definitions *)
  Definition definitions_if_any (n : N) (defs : list column_def) (ms : list bytes) : Prop :=
    if n =? 0 then defs = [] /\ ms = [] else definitions n defs ms.
  (** the number of columns, of which 32 bits are kept *)
  Definition column_count (n : N) (m : bytes) : Prop :=
    ~ starts_with x00 m /\ exists k, n = k mod 2 ^ 32 /\ fields [lenenc_any k; leftover] m.
  (** a query: no result set, a result set, or ERR *)
  Definition query_reply (id : option N) (v : verdict result_set) (ms : list bytes) : Prop :=
    (v = Done (mk_res [] true [] id) /\ exists m, ms = [m] /\ (completion m \/ column_count 0 m)) \/
    (exists n defs m dms, v = Done (mk_res defs false (map cd_type defs) id) /\ ms = m :: dms /\
       n <> 0 /\ column_count n m /\ definitions n defs dms) \/
    refusal v ms.
  (** preparing a statement: its number, the definitions of its parameters, those of its columns *)
  Definition prepare_reply (v : verdict prepared_stmt) (ms : list bytes) : Prop :=
    (exists p pdefs cdefs m pms cms, v = Done (mk_ps (spo_stmt_id p) cdefs pdefs (spo_n_warnings p)) /\
       ms = m :: pms ++ cms /\ fields [prepare_ok_layout p; leftover] m /\
       definitions_if_any (spo_n_params p) pdefs pms /\ definitions_if_any (spo_n_cols p) cdefs cms) \/
    refusal v ms.
  (** the fields of a table: definitions up to EOF or ERR *)
  Definition fields_reply (v : verdict (list column_def)) (ms : list bytes) : Prop :=
    exists defs dms m, ms = dms ++ [m] /\
      Forall2 (fun d m => ~ starts_with xff m /\ ~ starts_with xfe m /\ fields [coldef_layout true d; leftover] m) defs dms /\
      ((v = Done defs /\ starts_with xfe m /\ end_of_data m) \/ refusal v [m]).

  (** ** Rows *)
  (** the end of the rows is a short message with first byte 0xfe, anything else is a row *)
  Definition ends_rows (m : bytes) : Prop := starts_with xfe m /\ N.of_nat (length m) <= 0xffffff.
  Definition last_row_message (m : bytes) : Prop :=
    ends_rows m /\ if cap_deprecate_eof cap then exists p, ok_layout cap p m else end_of_data m.
  Definition says_row {Q} (layout : list Q -> bytes -> Prop) (row : list Q) (m : bytes) : Prop :=
    m <> [] /\ ~ ends_rows m /\ fields [layout row; leftover] m.
  Definition rows_reply {Q} (layout : list Q -> bytes -> Prop) (rows : list (list Q)) (ms : list bytes) : Prop :=
    exists rms m, ms = rms ++ [m] /\ Forall2 (says_row layout) rows rms /\ last_row_message m.
  Definition next_row_reply {Q} (layout : list Q -> bytes -> Prop) (row : option (list Q)) (ms : list bytes) : Prop :=
    exists m, ms = [m] /\ match row with Some r => says_row layout r m | None => last_row_message m end.
End Messages.

(** ** Events *)
(** After a zero byte, an event as in a file; those of the kinds that are no events to the library are passed over.  If the server was
    asked not to wait, a message with first byte 0xfe is the end. *)
Definition event_message (crc : bytes -> N) (checksum validate : bool) (o : option event) (m : bytes) : Prop :=
  exists body, m = x00 :: body /\ fields [event_layout crc checksum validate o; leftover] body.
Definition event_reply (crc : bytes -> N) (s : binlog_stream) (e : option event) (ms : list bytes) : Prop :=
  exists earlier m, ms = earlier ++ [m] /\
    Forall (event_message crc (p_checksum (s_pv4 s)) (s_validate s) None) earlier /\
    match e with
    | Some _ => event_message crc (p_checksum (s_pv4 s)) (s_validate s) e m
    | None => s_non_block s = true /\ starts_with xfe m
    end.

(** ** Login and change of user *)
(** A login: a greeting, further data that its method lets pass, OK as of protocol 4.1.  A refusal is never reported as the server's. *)
Definition login_completion (track : bool) (m : bytes) : Prop :=
  exists cap, cap_protocol_41 cap = true /\ cap_session_track cap = track /\ completion cap m.
Definition login_reply (cap : N) (password : bytes) (v : verdict unit) (ms : list bytes) : Prop :=
  v = Done tt /\ exists greeting hs more m, ms = greeting :: more ++ [m] /\
    fields [greeting_layout hs; leftover] greeting /\ lets_pass (hs_plugin hs) password more /\ login_completion (cap_session_track cap) m.
(** A change of user: any number of requests to use a method, each followed by further data that it lets pass, then OK or ERR. *)
Definition attempt (password : bytes) (ms : list bytes) : Prop :=
  exists sw m more, ms = m :: more /\ switch_layout sw m /\ lets_pass (sw_plugin sw) password more.
Definition user_reply (cap : N) (password : bytes) (v : verdict unit) (ms : list bytes) : Prop :=
  exists attempts m, ms = concat attempts ++ [m] /\ Forall (attempt password) attempts /\ plain_reply cap v [m].
