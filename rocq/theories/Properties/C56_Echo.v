(** C56: what is bound to a statement is what comes back.  The server and the comparison: Spec/Echo.v. *)
From Coq Require Import Strings.String Lia.
From Verif Require Import Model.Base Model.Auth Model.Utf8 Model.Packet Model.Conn Model.Time Model.Col Model.Row Model.Stmt Model.Extract Model.Session
  Spec.Wire Spec.Packets Spec.Values Spec.Framing Spec.Session Spec.Commands Spec.Execute Spec.ExtractSpec
  Spec.ResultSets Spec.Echo Proofs.CmdProofs Proofs.SessionProofs Proofs.CommandProofs Proofs.ExecuteProofs Proofs.EchoProofs.
Open Scope N_scope.

(** one cell: whatever bytes the server chooses for the value, they are read as the argument *)
Theorem C56_cell : forall a k w rest, fits_column a k -> arg_ok a -> rust_ok a -> a <> ANull -> cell k (arg_value a) w ->
  exists b, read_binary_value (fst k) (w ++ rest) = (Ok b, rest) /\ returned a b.
Proof.
  intros a k w rest F O R Nn ((b & W) & D). exists b. split; [exact (ValueProofs.read_wire_value _ _ _ rest W)|].
  eapply cell_returned; eauto. destruct a; try reflexivity. congruence.
Qed.
Print Assumptions C56_cell.

(** a query that sends its parameters back: the application gets its arguments *)
Theorem C56_echo : forall checks ps args defs hd rowm last c d,
  ps_stmt_id ps < 2 ^ 32 -> Forall arg_ok args -> Forall rust_ok args ->
  sendable checks (write_stmt_execute (ps_stmt_id ps) (map to_col args)) ->
  defs_ok defs -> heading (c_cap c) defs hd -> last_message (c_cap c) last ->
  Forall2 (fun a df => fits_column a (column_of df)) args defs ->
  accepting (c_ws c) -> awaits c (hd ++ [rowm; last]) d ->
  exists rs c1 m vs,
    stmt_qry checks ps (map to_col args) c = (Ok rs, c1) /\ commanded c c1 [m] /\
    server_execute (length args) m = Some (mk_ex (ps_stmt_id ps) 0 1 vs) /\ vs = map arg_value args /\
    (row_of (map column_of defs) vs rowm ->
     exists row, delivers (next_row binary_rows) rs c1 [row] d /\ Forall2 returned args row).
Proof. exact echoed. Qed.
Print Assumptions C56_echo.

(** rows inserted with one statement and selected with another *)
Theorem C56_stored : forall checks insert select batch defs oks hd rowms last c d,
  ps_stmt_id insert < 2 ^ 32 -> ps_stmt_id select < 2 ^ 32 ->
  Forall (Forall arg_ok) batch -> Forall (Forall rust_ok) batch ->
  Forall (fun args => sendable checks (write_stmt_execute (ps_stmt_id insert) (map to_col args))) batch ->
  Forall2 (fun (args : list arg) m => ok_message (c_cap c) 0 m) batch oks ->
  defs_ok defs -> heading (c_cap c) defs hd -> last_message (c_cap c) last ->
  Forall (fun args => Forall2 (fun a df => fits_column a (column_of df)) args defs) batch ->
  accepting (c_ws c) -> awaits c (oks ++ hd ++ rowms ++ [last]) d ->
  exists rs c1 ms m vss,
    insert_and_select checks insert select batch c = (Ok rs, c1) /\ commanded c c1 (ms ++ [m]) /\
    Forall2 (fun m vs => server_execute (length defs) m = Some (mk_ex (ps_stmt_id insert) 0 1 vs)) ms vss /\
    vss = map (map arg_value) batch /\ server_execute 0 m = Some (mk_ex (ps_stmt_id select) 0 1 []) /\
    (Forall2 (row_of (map column_of defs)) vss rowms ->
     exists rows, delivers (next_row binary_rows) rs c1 rows d /\ Forall2 (Forall2 returned) batch rows).
Proof. exact stored. Qed.
Print Assumptions C56_stored.

(** finding: a [MyDateTime] can be bound but its cell cannot be read as one, whatever date-time column holds it *)
Theorem C56_my_datetime_refuted : forall t k w rest, fits_column (AMyDateTime t) k ->
  cell k (arg_value (AMyDateTime t)) w -> extract (fst k) datetime_from_binary (w ++ rest) = Err EColType.
Proof.
  intros t k w rest F ((b & W) & D). apply (ExtractProofs.my_datetime_never _ b); [exact W|].
  cbn in F. destruct F as [-> | ->]; discriminate.
Qed.
Print Assumptions C56_my_datetime_refuted.

(** *** the hypotheses are met *)
Definition ex_args : list arg := [AI8 (-5); AString (str "caf") ; ANull; ADate (mk_nd 2024 2 29); ATime true 1 (mk_nt 2 3 4 5000)].
Definition ex_column (name : string) (ct : column_type) (flags : N) : column_def :=
  mk_cd (str "def") [] [] [] (str name) [] 63 20 ct flags 0 [].
Definition ex_defs : list column_def :=
  [ex_column "a" TTiny 0; ex_column "b" TVarString 0; ex_column "c" TLong 32; ex_column "d" TDate 128; ex_column "e" TTime 128].
Definition ex_row : bytes :=
  x00 :: [n2b 16] ++ wle 1 251 ++ wlstr (str "caf") ++ (wle 1 4 ++ wle 2 2024 ++ wle 1 2 ++ wle 1 29) ++
  (wle 1 12 ++ wle 1 1 ++ wle 4 1 ++ wle 1 2 ++ wle 1 3 ++ wle 1 4 ++ wle 4 5).
Definition ex_hd : list bytes := wlenenc 5 :: map coldef_wire ex_defs.
Definition ex_last : bytes := ok_wire 0x01000200 0xfe 0 0 2 0 [] [].
Definition ex_conn (ms : list bytes) : conn := mk_conn (chunks ms) [] [] 0x01000200 0 0.
Lemma ex_row_ok : row_of (map column_of ex_defs) (map arg_value ex_args) ex_row.
Proof.
  exists [false; false; true; false; false], [n2b 16].
  exists (wle 1 251 ++ wlstr (str "caf") ++ (wle 1 4 ++ wle 2 2024 ++ wle 1 2 ++ wle 1 29) ++
    (wle 1 12 ++ wle 1 1 ++ wle 4 1 ++ wle 1 2 ++ wle 1 3 ++ wle 1 4 ++ wle 4 5) ++ []).
  split; [|split].
  - apply cells_value; [split; [exists (BTiny 251); constructor; reflexivity|reflexivity]|].
    apply cells_value; [split; [exists (BVarString (str "caf")); apply wv_string; reflexivity|reflexivity]|].
    apply cells_null.
    apply cells_value; [split; [exists (BDate 2024 2 29); constructor; reflexivity|reflexivity]|].
    apply cells_value; [split; [exists (BTime (mk_time true 1 2 3 4 5)); apply (wv_time12 TTime true); reflexivity|reflexivity]|].
    constructor.
  - split; [reflexivity|]. intros i Hi. cbn [length] in Hi.
    do 5 (destruct i as [|i]; [reflexivity|]). lia.
  - reflexivity.
Qed.
Lemma ex_args_ok : Forall arg_ok ex_args /\ Forall rust_ok ex_args /\ Forall2 (fun a df => fits_column a (column_of df)) ex_args ex_defs.
Proof.
  split; [|split].
  - constructor; [cbn; unfold in_int; lia|]. constructor; [split; [reflexivity|discriminate]|].
    constructor; [exact I|]. constructor; [repeat split|]. constructor; [repeat split|constructor].
  - constructor; [exact I|]. constructor; [reflexivity|]. constructor; [exact I|]. constructor; [|constructor; [exact I|constructor]].
    cbn. unfold real_naive, real_date, leap_year; cbn [nd_year nd_month nd_day]. split; [lia|]. split; [lia|].
    right; right; right. split; [reflexivity|]. split; [reflexivity|]. right. split; [reflexivity|discriminate].
  - constructor; [reflexivity|]. constructor; [cbn; tauto|]. constructor; [exact I|]. constructor; [reflexivity|]. constructor; [reflexivity|constructor].
Qed.
Lemma ex_defs_ok : defs_ok ex_defs /\ heading 0x01000200 ex_defs ex_hd /\ last_message 0x01000200 ex_last.
Proof.
  split; [|split].
  - split; [discriminate|]. split; [reflexivity|]. repeat constructor.
  - exists []. split; [reflexivity|]. rewrite app_nil_r. reflexivity.
  - split; [|reflexivity]. constructor; reflexivity.
Qed.
Example C56_echo_example : exists rs c1 row,
  stmt_qry true (mk_ps 7 [] [] 0) (map to_col ex_args) (ex_conn (ex_hd ++ [ex_row; ex_last])) = (Ok rs, c1) /\
  delivers (next_row binary_rows) rs c1 [row] [] /\ Forall2 returned ex_args row.
Proof.
  destruct ex_args_ok as (A1 & A2 & A3). destruct ex_defs_ok as (D1 & D2 & D3).
  destruct (C56_echo true (mk_ps 7 [] [] 0) ex_args ex_defs ex_hd ex_row ex_last (ex_conn (ex_hd ++ [ex_row; ex_last])) []
    ltac:(reflexivity) A1 A2 ltac:(right; reflexivity) D1 D2 D3 A3 ltac:(constructor) ltac:(apply chunks_await; repeat constructor))
    as (rs & c1 & m & vs & E & _ & S & -> & K).
  destruct (K ex_row_ok) as (row & K1 & K2). exists rs, c1, row. auto.
Qed.
Definition ex_ok : bytes := ok_wire 0x01000200 0 1 0 2 0 [] [].
Example C56_stored_example : exists rs c1 row1 row2,
  insert_and_select true (mk_ps 7 [] [] 0) (mk_ps 8 [] [] 0) [ex_args; ex_args]
    (ex_conn ([ex_ok; ex_ok] ++ ex_hd ++ [ex_row; ex_row] ++ [ex_last])) = (Ok rs, c1) /\
  delivers (next_row binary_rows) rs c1 [row1; row2] [] /\ Forall2 returned ex_args row1 /\ Forall2 returned ex_args row2.
Proof.
  destruct ex_args_ok as (A1 & A2 & A3). destruct ex_defs_ok as (D1 & D2 & D3).
  destruct (C56_stored true (mk_ps 7 [] [] 0) (mk_ps 8 [] [] 0) [ex_args; ex_args] ex_defs [ex_ok; ex_ok] ex_hd [ex_row; ex_row] ex_last
    (ex_conn ([ex_ok; ex_ok] ++ ex_hd ++ [ex_row; ex_row] ++ [ex_last])) [])
    as (rs & c1 & ms & m & vs & E & _ & S & -> & _ & K); auto.
  - reflexivity.
  - reflexivity.
  - repeat (constructor; [right; reflexivity|]). constructor.
  - repeat (constructor; [constructor; reflexivity|]). constructor.
  - constructor.
  - apply chunks_await. repeat constructor.
  - destruct K as (rows & K1 & K2). { repeat (constructor; [exact ex_row_ok|]). constructor. }
    inversion K2 as [|? row1 ? ? R1 K3]; subst. inversion K3 as [|? row2 ? ? R2 K4]; subst. inversion K4; subst.
    exists rs, c1, row1, row2. auto.
Qed.
