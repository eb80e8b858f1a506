(** C43: binlog streams.  The server's side of the exchange: Spec/StreamSpec.v. *)
From Coq Require Import Strings.String.
From Verif Require Import Model.Base Model.Utf8 Model.Conn Model.Auth Model.Cmd Model.Col Model.Packet Model.Event Model.Stream
  Spec.Wire Spec.Packets Spec.Values Spec.Framing Spec.Session Spec.Commands Spec.Execute Spec.ExtractSpec Spec.ResultSets Spec.BinlogSpec
  Spec.StreamSpec Proofs.CommandProofs Proofs.StreamProofs.
Open Scope N_scope.

(** [n] calls return the first [n] supported events in order; exactly the messages up to the last of
    these have been read. *)
Theorem C43_events : forall crc s es ps d c n, (forall bs, crc bs < 2 ^ 32) -> s_completed s = false ->
  let sum := p_checksum (s_pv4 s) in
  Forall (log_event_ok sum) es -> (n <= length (reported sum es))%nat ->
  awaits c (map (event_message crc sum) es ++ ps) d ->
  exists es1 es2 c', es = es1 ++ es2 /\ length (reported sum es1) = n /\
    io_pulls (next_event crc s) n c = (returned (reported sum es1), c') /\
    awaits c' (map (event_message crc sum) es2 ++ ps) d /\ same_but_read c c'.
Proof. exact stream_events. Qed.
Print Assumptions C43_events.

(** non-blocking: an EOF packet ends the events with None and is the last thing read *)
Theorem C43_end : forall crc s es m d c, (forall bs, crc bs < 2 ^ 32) -> s_completed s = false -> s_non_block s = true ->
  let sum := p_checksum (s_pv4 s) in
  Forall (log_event_ok sum) es -> eof_message (c_cap c) m ->
  awaits c (map (event_message crc sum) es ++ [m]) d ->
  exists c', io_pulls (next_event crc s) (S (length (reported sum es))) c = (returned (reported sum es) ++ [Ok None], c') /\
    delivered (c_rd c') = d /\ same_but_read c c'.
Proof. exact stream_end. Qed.
Print Assumptions C43_end.
(** Finding: the call after that None reads on instead of returning None again; as the server
    sends nothing more, it fails (or never returns). *)
Theorem C43_end_again_refuted : forall crc s es m d c,
  (forall bs, crc bs < 2 ^ 32) -> s_completed s = false -> s_non_block s = true ->
  let sum := p_checksum (s_pv4 s) in
  Forall (log_event_ok sum) es -> eof_message (c_cap c) m -> no_message d ->
  awaits c (map (event_message crc sum) es ++ [m]) d ->
  exists c', io_pulls (next_event crc s) (S (S (length (reported sum es)))) c =
    (returned (reported sum es) ++ [Ok None; Err EIO], c').
Proof. exact stream_end_again. Qed.
Print Assumptions C43_end_again_refuted.
(** a stream the server ended in answer to the request itself does keep yielding None, without reading *)
Theorem C43_completed : forall crc s n c, s_completed s = true -> io_pulls (next_event crc s) n c = (repeat (Ok None) n, c).
Proof. exact stream_completed. Qed.
Print Assumptions C43_completed.

(** a stream that breaks off is an error, never an end *)
Theorem C43_cut : forall crc s es d c, (forall bs, crc bs < 2 ^ 32) -> s_completed s = false ->
  let sum := p_checksum (s_pv4 s) in
  Forall (log_event_ok sum) es -> no_message d -> awaits c (map (event_message crc sum) es) d ->
  exists c', io_pulls (next_event crc s) (S (length (reported sum es))) c = (returned (reported sum es) ++ [Err EIO], c').
Proof. exact stream_cut. Qed.
Print Assumptions C43_cut.
(** so is a corrupted event if checksums are validated *)
Theorem C43_checksum : forall crc s es e trailer d c, (forall bs, crc bs < 2 ^ 32) -> s_completed s = false ->
  p_checksum (s_pv4 s) = true -> s_validate s = true ->
  Forall (log_event_ok true) es -> log_event_ok true e -> trailer < 2 ^ 32 -> trailer <> crc (event_front true e) ->
  awaits c (map (event_message crc true) es ++ [x00 :: event_front true e ++ wle 4 trailer]) d ->
  exists c', io_pulls (next_event crc s) (S (length (reported true es))) c =
    (returned (reported true es) ++ [Err (EChecksum trailer (crc (event_front true e)))], c').
Proof. exact stream_checksum. Qed.
Print Assumptions C43_checksum.
(** any other message - an EOF packet in blocking mode, an ERR packet - is an error too.
    Finding: for an ERR packet the server's code and text are lost. *)
Theorem C43_error_refuted : forall crc s es b rest d c, (forall bs, crc bs < 2 ^ 32) -> s_completed s = false ->
  let sum := p_checksum (s_pv4 s) in
  Forall (log_event_ok sum) es -> awaits c (map (event_message crc sum) es ++ [b :: rest]) d ->
  b <> x00 -> (b = xfe -> s_non_block s = false) ->
  exists c', io_pulls (next_event crc s) (S (length (reported sum es))) c = (returned (reported sum es) ++ [Err EPacket], c').
Proof. exact stream_broken. Qed.
Print Assumptions C43_error_refuted.

(** Requesting a stream: the variables are read and set and the client is registered, the dump
    is requested as the options say, and the stream reads events as the log's own description says. *)
Theorem C43_request : forall cap checks o uuid random_id slave_id master_id algorithm mode qs ans m1 d m2,
  slave_id = (if bo_server_id o =? 0 then random_id else bo_server_id o) -> slave_id < 2 ^ 32 ->
  length uuid = 36%nat -> bo_heartbeat o < 2 ^ 64 -> options_ok o ->
  (mode <> str "ON" -> bo_pos o < 2 ^ 32) ->
  set_up cap o uuid slave_id master_id algorithm mode qs ans ->
  forall sum, (sum = true <-> algorithm = str "CRC32") ->
  rotate_message sum m1 -> description_message d m2 ->
  conversation cap (request_stream checks uuid random_id o)
    (qs ++ [asks cap (expected_dump (beqb mode (str "ON")) slave_id o)]) (ans ++ [m1; m2])
    (Ok (mk_stream (described_parser d) (bo_validate o) false (bo_non_block o))).
Proof. exact request_ok. Qed.
Print Assumptions C43_request.
(** the server's other answers to the request: nothing to send, an error, something else *)
Theorem C43_request_refused : forall cap checks o uuid random_id slave_id master_id algorithm mode qs ans ps r,
  slave_id = (if bo_server_id o =? 0 then random_id else bo_server_id o) -> slave_id < 2 ^ 32 ->
  length uuid = 36%nat -> bo_heartbeat o < 2 ^ 64 -> options_ok o ->
  set_up cap o uuid slave_id master_id algorithm mode qs ans ->
  (exists m, ps = [m] /\
    ((eof_message cap m /\ r = Ok (mk_stream (mk_parser [] false) (bo_validate o) true (bo_non_block o))) \/
     (exists e, err_message cap m e /\ r = Err e) \/
     (exists e rest, log_event_ok (beqb algorithm (str "CRC32")) e /\ le_code e <> 4 /\
        m = x00 :: event_front (beqb algorithm (str "CRC32")) e ++ rest /\ r = Err ECustom) \/
     (exists b rest, m = b :: rest /\ b <> x00 /\ b <> xfe /\ b <> xff /\ r = Err EPacket))) ->
  exists dump, conversation cap (request_stream checks uuid random_id o) (qs ++ [asks cap dump]) (ans ++ ps) r.
Proof. exact request_refused. Qed.
Print Assumptions C43_request_refused.
(** Finding: without GTIDs a position from 2^32 on is silently reduced modulo 2^32 *)
Theorem C43_position_refuted : forall cap checks o uuid random_id slave_id master_id algorithm mode qs ans m1 d m2,
  slave_id = (if bo_server_id o =? 0 then random_id else bo_server_id o) -> slave_id < 2 ^ 32 ->
  length uuid = 36%nat -> bo_heartbeat o < 2 ^ 64 -> options_ok o -> mode <> str "ON" ->
  set_up cap o uuid slave_id master_id algorithm mode qs ans ->
  rotate_message (beqb algorithm (str "CRC32")) m1 -> description_message d m2 ->
  conversation cap (request_stream checks uuid random_id o)
    (qs ++ [asks cap (RqBinlogDump (bo_pos o mod 2 ^ 32) (if bo_non_block o then 1 else 0) slave_id (bo_filename o))])
    (ans ++ [m1; m2])
    (Ok (mk_stream (described_parser d) (bo_validate o) false (bo_non_block o))).
Proof. exact request_truncated. Qed.
Print Assumptions C43_position_refuted.
(** Finding: a first rotate event without room for the checksum panics *)
Theorem C43_short_rotate_refuted : forall cap checks o uuid random_id slave_id master_id mode qs ans e,
  slave_id = (if bo_server_id o =? 0 then random_id else bo_server_id o) -> slave_id < 2 ^ 32 ->
  length uuid = 36%nat -> bo_heartbeat o < 2 ^ 64 -> options_ok o ->
  set_up cap o uuid slave_id master_id (str "CRC32") mode qs ans ->
  log_event_ok false e -> le_code e = 4 -> (length (le_body e) < 4)%nat ->
  exists dump, conversation cap (request_stream checks uuid random_id o) (qs ++ [asks cap dump])
    (ans ++ [x00 :: event_front false e]) (Panic PArith).
Proof. exact request_short. Qed.
Print Assumptions C43_short_rotate_refuted.
(** a server without the variable gtid_mode (before 5.6) is refused before anything is requested *)
Theorem C43_no_gtid_mode : forall cap checks o uuid random_id n id_text algorithm id1 id2 a1 a2 a3 a4 a5,
  bo_heartbeat o < 2 ^ 64 -> unsigned_text n id_text -> n < 2 ^ 32 -> utf8_valid algorithm = true -> (length algorithm <= 250)%nat ->
  variable_answer cap id_text a1 -> set_answer cap id1 a2 -> variable_answer cap algorithm a3 -> set_answer cap id2 a4 ->
  variable_missing cap a5 ->
  conversation cap (request_stream checks uuid random_id o)
    (get_requests cap (str "SERVER_ID") ++
     set_requests cap id1 (str "MASTER_HEARTBEAT_PERIOD") (VInt (Z.of_N (bo_heartbeat o))) ++
     get_requests cap (str "BINLOG_CHECKSUM") ++
     set_requests cap id2 (str "MASTER_BINLOG_CHECKSUM") (VBytes algorithm) ++ get_requests cap (str "GTID_MODE"))
    (a1 ++ a2 ++ a3 ++ a4 ++ a5) (Err ECustom).
Proof. exact request_no_gtid_mode. Qed.
Print Assumptions C43_no_gtid_mode.

(** *** Examples *)
(** two reported events around two unsupported ones, then the end; with checksums *)
Definition example_events : list log_event :=
  [mk_log_event 1 28 2 300 0 []; mk_log_event 1 16 2 331 0 (wle 8 77); mk_log_event 1 29 2 350 0 (str "x");
   mk_log_event 1 3 2 373 0 []; mk_log_event 1 38 2 400 0 []].
Definition example_stream : binlog_stream := mk_stream (mk_parser [] true) true false true.
Definition example_conn : conn :=
  mk_conn (chunks (map (event_message crc32 true) example_events ++ [eof_wire 0x200 0 2])) [] [] 0x200 0 0.
Example C43_example : Forall (log_event_ok true) example_events /\
  awaits example_conn (map (event_message crc32 true) example_events ++ [eof_wire 0x200 0 2]) [] /\
  fst (io_pulls (next_event crc32 example_stream) 4 example_conn) =
    returned (reported true example_events) ++ [Ok None; Err EIO] /\
  map ev_kind (reported true example_events) = [KXid; KStop] /\ no_message [].
Proof.
  split; [|split; [|split; [|split]]].
  - unfold example_events. repeat constructor.
  - apply chunks_await. repeat constructor.
  - vm_compute. reflexivity.
  - reflexivity.
  - exact nil_no_message.
Qed.
(** an exchange meeting [set_up] *)
Definition one_column (ct : column_type) : column_def :=
  mk_cd (str "def") [] [] [] (str "n") [] 63 20 ct 0 0 [].
Definition example_var (v : bytes) : list bytes :=
  (wlenenc 2 :: map coldef_wire [one_column TVarString; one_column TVarString]) ++
  [text_row [Some (str "name"); Some v]] ++ [ok_wire 0x01000200 0xfe 0 0 2 0 [] []].
Definition example_set (id : N) : list bytes :=
  (prepare_ok_wire id 0 1 0 :: [coldef_wire (one_column TVarString)]) ++ [ok_wire 0x01000200 0 0 0 2 0 [] []].
Lemma example_variable v : N.of_nat (length v) < 2 ^ 64 -> variable_answer 0x01000200 v (example_var v).
Proof.
  intros H. exists [one_column TVarString; one_column TVarString], (Some (str "name")), [], [],
    (wlenenc 2 :: map coldef_wire [one_column TVarString; one_column TVarString]),
    [text_row [Some (str "name"); Some v]], (ok_wire 0x01000200 0xfe 0 0 2 0 [] []).
  split; [split; [discriminate|split; [reflexivity|repeat constructor]]|].
  split; [exists []; split; reflexivity|].
  split; [constructor; [split; [reflexivity|split; [|reflexivity]]|constructor]|].
  - constructor; [reflexivity|]. constructor; [exact H|constructor].
  - split; [split; [constructor; reflexivity|reflexivity]|reflexivity].
Qed.
Lemma example_setting id : id < 2 ^ 32 -> set_answer 0x01000200 id (example_set id).
Proof.
  intros H. exists [one_column TVarString], 0, [coldef_wire (one_column TVarString)], (ok_wire 0x01000200 0 0 0 2 0 [] []).
  split; [exact H|]. split; [reflexivity|]. split; [repeat constructor|]. split; [reflexivity|].
  split; [exists []; split; reflexivity|]. split; [constructor; reflexivity|reflexivity].
Qed.
Definition example_uuid : bytes := str "3e11fa47-71ca-11e1-9e33-c80aa9429562".
Example C43_example_request :
  let o := bo_set_filename (str "mysql-bin.000001") (bo_set_server_id 7 bo_new) in
  exists qs ans, set_up 0x01000200 o example_uuid 7 1 (str "CRC32") (str "OFF") qs ans /\
  options_ok o /\ length example_uuid = 36%nat /\
  (exists m, rotate_message true m) /\
  (exists d m, description_message d m /\ p_checksum (described_parser d) = true).
Proof.
  intros o. eexists _, _. split; [|split; [|split; [reflexivity|split]]].
  - apply (set_up_intro 0x01000200 o example_uuid 7 1 (str "1") (str "CRC32") (str "OFF") example_uuid 1 2 3
      (example_var (str "1")) (example_set 1) (example_var (str "CRC32")) (example_set 2) (example_var (str "OFF"))
      (example_var example_uuid) (example_set 3) (ok_wire 0x01000200 0 0 0 2 0 [] []));
      first [reflexivity | apply example_variable; reflexivity | apply example_setting; reflexivity | idtac].
    + exists 0%nat, []. split; [reflexivity|]. split; [reflexivity|left; reflexivity].
    + cbn. repeat constructor.
    + constructor; reflexivity.
  - repeat split; try constructor.
  - exists (x00 :: event_front true (mk_log_event 0 4 1 0 32 (wle 8 4 ++ str "mysql-bin.000001")) ++ [x00; x00; x00; x00]).
    exists (mk_log_event 0 4 1 0 32 (wle 8 4 ++ str "mysql-bin.000001")), 4, (str "mysql-bin.000001"), [x00; x00; x00; x00].
    repeat split.
  - pose (d := mk_fde_spec 4 (str "5.7.30-log") 0 19 (repeat x08 14 ++ [x5f] ++ repeat x08 23) (Some (1, [x01; x02; x03; x04]))).
    exists d, (x00 :: event_front false (mk_log_event 0 15 1 0 0 (fde_body d))). split; [|reflexivity].
    exists (mk_log_event 0 15 1 0 0 (fde_body d)). split; [repeat split|]. split; [reflexivity|]. split; [|split; reflexivity].
    split; [reflexivity|]. split; [cbn; repeat constructor|]. split; [cbn; unfold no_nul; cbn; intuition discriminate|].
    split; [reflexivity|]. split; [reflexivity|]. split; [reflexivity|]. split; [reflexivity|]. split; [reflexivity|].
    split; reflexivity.
Qed.
