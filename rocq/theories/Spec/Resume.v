(** * Specification: reading a binlog in several sessions

    A server's binlog is a sequence of files.  Each begins with a format description event and
    each but the newest ends with a rotate event that names the next one.  The header of an
    event carries the position of the event after it.  From the MySQL documentation (The Binary
    Log, Replication Protocol). *)
From Coq Require Import Strings.String.
From Coq Require Import List NArith Bool.
From Verif Require Import Model.Base Model.Auth Model.Conn Model.Event Model.EventBody Model.Stream Spec.Wire Spec.Framing Spec.Packets
  Spec.Session Spec.Commands Spec.ResultSets Spec.BinlogSpec Spec.StreamSpec Spec.Programs.
Import ListNotations.
Open Scope N_scope.

(** ** The log *)
(** [lf_first] is where the first event after the format description event starts *)
Record log_file := mk_lf { lf_name : bytes; lf_descr : fde_spec; lf_first : N; lf_events : list log_event }.

(** where an event ends is where the next one starts *)
Fixpoint placed (sum : bool) (start : N) (es : list log_event) : Prop :=
  match es with
  | [] => True
  | e :: es => le_next_pos e = start + event_size sum e /\ placed sum (le_next_pos e) es
  end.
(** the position after the events [es] *)
Definition place_after (start : N) (es : list log_event) : N := last (map le_next_pos es) start.

(** events that are not part of the log but made up while sending *)
Definition artificial (flags : N) : bool := N.testbit flags 5.
Definition rotates_to (name : bytes) (e : log_event) : Prop := le_code e = 4 /\ le_body e = wle 8 4 ++ name.
(** an event of the log other than format descriptions and rotate events *)
Definition plain_event (e : log_event) : Prop := le_code e <> 4 /\ le_code e <> 15 /\ artificial (le_flags e) = false.

Definition file_ok (sum : bool) (f : log_file) : Prop :=
  N.of_nat (length (lf_name f)) < 2 ^ 30 /\ fde_ok (lf_descr f) /\ p_checksum (described_parser (lf_descr f)) = sum /\
  4 < lf_first f < 2 ^ 32 /\ Forall (log_event_ok sum) (lf_events f) /\ placed sum (lf_first f) (lf_events f).
Fixpoint linked (files : list log_file) : Prop :=
  match files with
  | [] => True
  | [f] => Forall plain_event (lf_events f)
  | f :: (g :: _) as rest =>
      (exists es r, lf_events f = es ++ [r] /\ Forall plain_event es /\ rotates_to (lf_name g) r /\ artificial (le_flags r) = false) /\
      linked rest
  end.
Definition log_ok (sum : bool) (files : list log_file) : Prop :=
  NoDup (map lf_name files) /\ Forall (file_ok sum) files /\ linked files.
Definition log_events (files : list log_file) : list log_event := flat_map lf_events files.

(** ** The server *)
(** The events sent when [es] (the file after [pos]) and the files [after] are still to come; [left] are those that
    are not sent.  Between files come a made up rotate event and the next file's description; anywhere else a heartbeat
    may come, which repeats the position reached. *)
Inductive feed (sum : bool) : N -> list log_event -> list log_file -> list log_event -> list log_event -> Prop :=
| feed_stop pos es after : feed sum pos es after [] (es ++ log_events after)
| feed_event pos e es after sent left : feed sum (le_next_pos e) es after sent left ->
    feed sum pos (e :: es) after (e :: sent) left
| feed_heartbeat pos es after h sent left :
    log_event_ok sum h -> le_code h = 27 -> le_next_pos h = pos -> artificial (le_flags h) = true -> (es <> [] \/ after = []) ->
    feed sum pos es after sent left -> feed sum pos es after (h :: sent) left
| feed_file pos g after r d sent left :
    log_event_ok sum r -> rotates_to (lf_name g) r -> artificial (le_flags r) = true ->
    log_event_ok sum d -> le_code d = 15 -> le_next_pos d = lf_first g ->
    feed sum (lf_first g) (lf_events g) after sent left ->
    feed sum pos [] (g :: after) (r :: d :: sent) left.
(** [at_] is a place in the log: [pos] in a file where [es] are the events after it and [after] the files after that
    one; 4, where every file starts, is as good as the end of the description *)
Definition stands (files : list log_file) (at_ : bytes * N) (pos : N) (es : list log_event) (after : list log_file) : Prop :=
  exists before f done, files = before ++ f :: after /\ lf_events f = done ++ es /\ fst at_ = lf_name f /\
    pos = place_after (lf_first f) done /\ (snd at_ = pos \/ (snd at_ = 4 /\ done = [])).
(** [todo] are the events of the log after a place *)
Definition to_come (files : list log_file) (at_ : bytes * N) (todo : list log_event) : Prop :=
  exists pos es after, stands files at_ pos es after /\ todo = es ++ log_events after.
(** the file that is meant: it is described before its events are sent *)
Definition described (files : list log_file) (name : bytes) (d : fde_spec) : Prop :=
  exists f, In f files /\ lf_name f = name /\ d = lf_descr f.
(** The server's answer to a request for the log from [at] on: a rotate event, the description of the file, events;
    it may end with a packet that is not an event (EOF or ERR) *)
Definition serves (crc : bytes -> N) (sum : bool) (files : list log_file) (at_ : bytes * N) (left : list log_event) (ms : list bytes) : Prop :=
  exists pos es after d m1 m2 sent stop, stands files at_ pos es after /\ described files (fst at_) d /\
    rotate_message sum m1 /\ description_message d m2 /\ feed sum pos es after sent left /\
    (stop = [] \/ exists b rest, stop = [b :: rest] /\ b <> x00) /\
    ms = m1 :: m2 :: map (event_message crc sum) sent ++ stop.

(** ** The client *)
(** where to go on after an event: a rotate event says it, other events carry the position after them *)
Definition note (at_ : bytes * N) (e : event) : bytes * N :=
  match ev_kind e with
  | KRotate => match fst (read_rotate (ev_data e)) with Ok (pos, name) => (name, pos) | _ => at_ end
  | _ => if h_next_pos (ev_header e) =? 0 then at_ else (fst at_, h_next_pos (ev_header e))
  end.
(** it asks for [n] events, and stops early when there is none or a call fails *)
Fixpoint read_events (crc : bytes -> N) (s : binlog_stream) (n : nat) (at_ : bytes * N) (c : conn) : list event * (bytes * N) * conn :=
  match n with
  | O => ([], at_, c)
  | S n =>
      match next_event crc s c with
      | (Ok (Some e), c) => let '(es, at_, c) := read_events crc s n (note at_ e) c in (e :: es, at_, c)
      | (_, c) => ([], at_, c)
      end
  end.
Definition start_at (o : binlog_options) (at_ : bytes * N) : binlog_options := bo_set_filename (fst at_) (bo_set_pos (snd at_) o).
Definition session (crc : bytes -> N) (checks : bool) (uuid : bytes) (random_id : N) (o : binlog_options) (n : nat) (at_ : bytes * N)
  (c : conn) : list event * (bytes * N) * conn :=
  match request_stream checks uuid random_id (start_at o at_) c with
  | (Ok s, c) => read_events crc s n at_ c
  | (_, c) => ([], at_, c)
  end.
(** the events that are part of the log *)
Definition wanted (e : event) : bool :=
  match ev_kind e with KFormatDescription => false | _ => negb (artificial (h_flags (ev_header e))) end.

(** ** A session and a history *)
(** what a server reads in a message: a request for the log *)
Definition dump_request (cap : N) (m : bytes) (at_ : bytes * N) : Prop :=
  (exists wait id, asks cap (RqBinlogDump (snd at_) wait id (fst at_)) m) \/
  (exists flags id sids, asks cap (RqBinlogDumpGtid flags id (fst at_) (snd at_) sids) m).

Record setting := mk_setting
  { st_crc : bytes -> N; st_checks : bool; st_options : binlog_options; st_sum : bool; st_log : list log_file }.
Definition setting_ok (x : setting) : Prop :=
  (forall bs, st_crc x bs < 2 ^ 32) /\ bo_server_id (st_options x) < 2 ^ 32 /\ bo_heartbeat (st_options x) < 2 ^ 64 /\
  bo_sids (st_options x) = [] /\ log_ok (st_sum x) (st_log x).
(** [c] is a connection to the server: the preliminaries are answered, then the log is sent from the place the client
    asks for; [lost] is what does not arrive because the connection breaks off before *)
Definition served (x : setting) (uuid : bytes) (random_id : N) (at_ : bytes * N) (c c' : conn) (left : list log_event) (lost : bytes) : Prop :=
  exists slave_id master_id algorithm mode qs ans asked ms,
    slave_id = (if bo_server_id (st_options x) =? 0 then random_id else bo_server_id (st_options x)) /\ slave_id < 2 ^ 32 /\
    length uuid = 36%nat /\ (st_sum x = true <-> algorithm = str "CRC32") /\
    set_up (c_cap c) (start_at (st_options x) at_) uuid slave_id master_id algorithm mode qs ans /\
    serves (st_crc x) (st_sum x) (st_log x) asked left ms /\
    (forall sent m place, commanded c c' sent -> In m sent -> dump_request (c_cap c) m place -> place = asked) /\
    accepting (c_ws c) /\ messages_wire (ans ++ ms) (arriving c ++ lost).
Inductive history (x : setting) : bytes * N -> list (list event) -> bytes * N -> Prop :=
| hist_none at_ : history x at_ [] at_
| hist_session at_ uuid random_id n c events at1 c' left lost runs at2 :
    session (st_crc x) (st_checks x) uuid random_id (st_options x) n at_ c = (events, at1, c') ->
    served x uuid random_id at_ c c' left lost ->
    history x at1 runs at2 -> history x at_ (events :: runs) at2.
