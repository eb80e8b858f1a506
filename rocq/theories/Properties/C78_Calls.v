(** * C78: what calls made of several exchanges report is exactly what the server's bytes say.  The output is accepted. *)
From Coq Require Import Strings.String.
From Coq Require Import List NArith ZArith Lia Arith Bool.
From Verif Require Import Model.Base Model.BytesParser Model.Utf8 Model.Conn Model.Packet Model.Auth Model.Cmd Model.Col Model.Stmt Model.Extract Model.Event Model.EventBody Model.Session Model.Stream
  Spec.Nums Spec.LenEncSpec Spec.Wire Spec.Packets Spec.Framing Spec.Programs Spec.Values Spec.Hostile Spec.BinlogSpec Spec.ResultSets Spec.Accepts Spec.AcceptsEvents Spec.AcceptsFile Spec.StreamSpec Spec.Verdicts Spec.VerdictsCalls
  Proofs.BaseLemmas Proofs.ConnProofs Proofs.AcceptsProofs Proofs.VerdictsProofs Proofs.VerdictsCalls Properties.C78_Verdicts Properties.C43_Stream.
Import ListNotations.
Open Scope N_scope.

Ltac lengths := unfold write_bytes; rewrite ?app_length; repeat match goal with
  | |- context [length (str ?s)] => let n := eval vm_compute in (length (str s)) in change (length (str s)) with n
  | |- context [length (write_u8 ?x)] => change (length (write_u8 x)) with 1%nat
  end.

(** system variables and user variables; no conversion of values reports a refusal by a server *)
Theorem C78_variables : forall V checks (conversion : option bytes -> res V) name c, accepting (c_ws c) ->
  (forall x code marker state message, conversion x <> Err (ESql code marker state message)) ->
  sendable checks (str "SHOW GLOBAL VARIABLES LIKE '" ++ name ++ str "'") ->
  (forall global, reports (conn_get_var checks conversion name global) c (variable_reply (c_cap c) conversion 1)) /\
  reports (conn_get_user_var checks conversion name) c (variable_reply (c_cap c) conversion 0).
Proof.
  intros V checks conversion name c Ac O S.
  assert (O' : forall x e, conversion x = Err e -> own e) by (intros x [] E; try exact I; destruct (O _ _ _ _ _ E)).
  split; [intros global; apply get_var_reports|apply get_user_var_reports]; try assumption; apply (fits_msg _ _ _ S); unfold write_query, get_var_sql; try destruct global;
    lengths; lia.
Qed.
Print Assumptions C78_variables.
(** the list of binlog files *)
Theorem C78_binlog_files : forall checks c, accepting (c_ws c) -> reports (conn_binlog_files checks) c (files_reply (c_cap c)).
Proof. exact files_reports. Qed.
Print Assumptions C78_binlog_files.
(** a statement executed and closed; variables set *)
Theorem C78_set_variables : forall checks c, accepting (c_ws c) ->
  (forall ps params, params_size checks (ps_stmt_id ps) params -> reports (stmt_exec_close checks ps params) c (exec_reply (c_cap c))) /\
  (forall name value, sendable checks (str "SET @@GLOBAL." ++ name ++ str " = ?") -> (forall id, params_size checks id [value]) ->
     (forall global, reports (conn_set_var checks name value global) c (set_reply (c_cap c))) /\
     reports (conn_set_user_var checks name value) c (set_reply (c_cap c))).
Proof.
  intros checks c Ac. split.
  - intros ps params S. apply exec_close_reports; [apply fits_params, S|exact Ac].
  - intros name value S P.
    split; [intros global|]; (apply set_reports; [|intros id; apply fits_params, P|exact Ac]); apply (fits_msg _ _ _ S); unfold write_stmt_prepare, set_var_sql; try destruct global;
      lengths; lia.
Qed.
Print Assumptions C78_set_variables.
(** requesting a stream of events, when packet numbers wrap around silently: eight exchanges and the start of the stream *)
Theorem C78_request_stream : forall uuid random_id o c, accepting (c_ws c) ->
  reports (request_stream false uuid random_id o) c (stream_reply (c_cap c) o).
Proof. intros. apply stream_reports. assumption. Qed.
Print Assumptions C78_request_stream.
(** and no event of it is ever a refusal: what the server says against going on is lost *)
Theorem C78_stream_refusal_lost : forall crc s c code marker state message, fst (next_event crc s c) <> Err (ESql code marker state message).
Proof. intros crc s c code marker state message E. exact (event_own _ _ _ _ E). Qed.
Print Assumptions C78_stream_refusal_lost.

(** *** Examples: a variable, given in the second of two columns; two files; no list when a size is no number;
    a stream requested from a server that writes checksums; a request refused when the client registers *)
Definition ex_last : bytes := ok_wire 0x01000200 0xfe 0 0 2 0 [] [].
Definition ex_rows (rows : list bytes) : list bytes := wlenenc 2 :: map coldef_wire [one_column TVarString; one_column TLongLong] ++ rows ++ [ex_last].
Example C78_variables_example :
  let c := mk_conn (Proofs.CommandProofs.chunks (example_var (str "CRC32") ++ [[x07]])) [] [] 0x01000200 0 0 in
  exists ms w rest, messages_wire ms w /\ arriving c = w ++ rest /\ rest <> [] /\ variable_reply 0x01000200 (non_null string_from_text) 1 (Done (Some (str "CRC32"))) ms.
Proof.
  cbv zeta. set (c := mk_conn _ _ _ _ _ _).
  destruct (C78_variables bytes true (non_null string_from_text) (str "BINLOG_CHECKSUM") c I) as [X _]; [intros [x|] code mk st msg; [unfold non_null, string_from_text, from_utf8; destruct (utf8_valid x)|]; discriminate|right; reflexivity|].
  destruct (proj1 (X true (Done (Some (str "CRC32"))) (arriving (snd (conn_get_var true (non_null string_from_text) (str "BINLOG_CHECKSUM") true c))))) as (ms & w & W & A & R); [split; [vm_compute; reflexivity|reflexivity]|].
  exists ms, w, (arriving (snd (conn_get_var true (non_null string_from_text) (str "BINLOG_CHECKSUM") true c))). split; [exact W|]. split; [exact A|]. split; [vm_compute; discriminate|exact R].
Qed.
Example C78_binlog_files_example :
  let ask rows := fst (conn_binlog_files true (mk_conn (Proofs.CommandProofs.chunks (ex_rows rows)) [] [] 0x01000200 0 0)) in
  ask [text_row [Some (str "bin.000001"); Some (str "154")]; text_row [Some (str "bin.000002"); Some (str "4")]] = Ok [(str "bin.000001", 154); (str "bin.000002", 4)] /\
  (exists ms w, messages_wire ms w /\ arriving (mk_conn (Proofs.CommandProofs.chunks (ex_rows [text_row [Some (str "bin.000001"); Some (str "154")]])) [] [] 0x01000200 0 0) = w ++ [] /\
     files_reply 0x01000200 (Done [(str "bin.000001", 154)]) ms) /\
  ask [text_row [Some (str "bin.000001"); Some (str "154")]; text_row [Some (str "bin.000002"); Some (str "-4")]] = Err EParseValue.
Proof.
  cbv zeta. split; [vm_compute; reflexivity|]. split; [|vm_compute; reflexivity].
  set (c := mk_conn _ _ _ _ _ _). apply (C78_binlog_files true c I). split; vm_compute; reflexivity.
Qed.
Example C78_set_variables_example :
  let c := mk_conn (Proofs.CommandProofs.chunks (example_set 3)) [] [] 0x01000200 0 0 in
  (exists ms w, messages_wire ms w /\ arriving c = w ++ [] /\ set_reply 0x01000200 (Done tt) ms) /\ (forall id, params_size true id [to_col (AU64 5)]).
Proof.
  cbv zeta. set (c := mk_conn _ _ _ _ _ _).
  assert (P : forall id, params_size true id [to_col (AU64 5)]) by (intros id; right; vm_compute; reflexivity). split; [|exact P].
  apply (proj1 (proj2 (C78_set_variables true c I) (str "x") (to_col (AU64 5)) (or_intror eq_refl) P) true). split; vm_compute; reflexivity.
Qed.
Definition ex_setup : list bytes :=
  example_var (str "1") ++ example_set 1 ++ example_var (str "CRC32") ++ example_set 2 ++ example_var (str "OFF") ++ example_var example_uuid ++ example_set 3.
Definition ex_rotation : bytes := x00 :: event_front true (mk_log_event 0 4 1 0 32 (wle 8 4 ++ str "mysql-bin.000001")) ++ [x00; x00; x00; x00].
Definition ex_description : bytes :=
  x00 :: event_front false (mk_log_event 0 15 1 0 0 (fde_body (mk_fde_spec 4 (str "5.7.30-log") 0 19 (repeat x08 14 ++ [x5f] ++ repeat x08 23) (Some (1, [x01; x02; x03; x04]))))).
Example C78_request_stream_example :
  let start := ex_setup ++ [ok_wire 0x01000200 0 0 0 2 0 [] []; ex_rotation; ex_description] in
  let c := mk_conn (Proofs.CommandProofs.chunks start) [] [] 0x01000200 0 0 in
  let refused := mk_conn (Proofs.CommandProofs.chunks (ex_setup ++ [no_database])) [] [] 0x01000200 0 0 in
  (exists s ms w, p_checksum (s_pv4 s) = true /\ messages_wire ms w /\ arriving c = w ++ [] /\ stream_reply 0x01000200 bo_new (Done s) ms) /\
  (exists ms w, messages_wire ms w /\ arriving refused = w ++ [] /\ stream_reply 0x01000200 bo_new (Refused 1049 x23 (str "42000") (str "No")) ms).
Proof.
  cbv zeta. set (c := mk_conn (Proofs.CommandProofs.chunks (_ ++ [_; _; _])) _ _ _ _ _). set (refused := mk_conn (Proofs.CommandProofs.chunks (_ ++ [no_database])) _ _ _ _ _). split.
  - assert (E : exists s, p_checksum (s_pv4 s) = true /\ fst (request_stream false example_uuid 9 bo_new c) = Ok s /\ arriving (snd (request_stream false example_uuid 9 bo_new c)) = [])
      by (eexists; split; [|split]; [| vm_compute; reflexivity | vm_compute; reflexivity]; reflexivity).
    destruct E as (s & P & E & A). exists s. destruct (proj1 (C78_request_stream example_uuid 9 bo_new c I (Done s) []) (conj E A)) as (ms & w & H). eauto.
  - apply (C78_request_stream example_uuid 9 bo_new refused I). split; vm_compute; reflexivity.
Qed.
