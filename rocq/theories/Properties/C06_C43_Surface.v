(** * Smaller parts of the public interface: packets, defaults, typed events, column types, options *)
From Coq Require Import Strings.String.
From Coq Require Import List NArith ZArith Lia Arith Bool.
From Verif Require Import Model.Base Model.BytesParser Model.LenEnc Model.Conn Model.Flags Model.Packet Model.Auth Model.Time Model.Col Model.Stmt Model.StmtDefs
  Model.Event Model.EventBody Model.Cmd Model.Stream Spec.Nums Spec.Framing Spec.Wire Spec.Packets Spec.AuthSpec Spec.Commands Spec.Values Spec.Execute Spec.ResultSets
  Proofs.BaseLemmas Proofs.BytesParserProofs Proofs.LenEncProofs Proofs.CodecProofs Proofs.WireLemmas Proofs.ConnProofs Proofs.PacketProofs Proofs.AuthProofs Proofs.ExecuteProofs Proofs.TimeProofs Proofs.CmdProofs Proofs.SessionProofs.
Import ListNotations.
Open Scope N_scope.

(** ** C06: a single packet read from bytes *)
Theorem C06_packet : forall seq p w rest, N.of_nat (length p) <= full -> packet_wire seq p w ->
  read_packet (w ++ rest) = (Ok (mk_packet (N.of_nat (length p)) (Byte.to_N seq) p), rest).
Proof.
  intros seq p w rest L (l & [Hl Hv] & ->). unfold read_packet. rewrite <- app_assoc. cbn [app].
  rewrite (pbind_ok _ _ _ _ _ (read_le_u24_spec _ l Hl)), Hv.
  rewrite (pbind_ok _ _ _ _ _ (read_u8_cons seq _)).
  rewrite (pbind_ok _ _ _ _ _ (read_len_app _ p rest eq_refl)). reflexivity.
Qed.
Print Assumptions C06_packet.

(** ** C13: the default login request announces these capabilities, and no others *)
Theorem C13_default_capabilities : forall i, N.testbit (hr_cap default_response) i = true <->
  In i [0; 1; 2; 9; 13; 14; 17; 18; 19; 20; 21; 23; 24].
Proof.
  intros i. change (hr_cap default_response) with 0x1be6207. split.
  - intros H. assert (L : i < 25). { destruct (N.lt_ge_cases i 25) as [L|L]; [exact L|]. rewrite N.bits_above_log2 in H; [discriminate H|]. change (N.log2 0x1be6207) with 24. lia. }
    assert (K : In i (map N.of_nat (seq 0 25))). { apply in_map_iff. exists (N.to_nat i). split; [apply N2Nat.id|]. apply in_seq. lia. }
    cbn [map seq] in K. cbn [In] in K |- *. repeat (destruct K as [<- | K]; [vm_compute in H; first [discriminate H | tauto]|]). destruct K.
  - cbn [In]. intros H. repeat (destruct H as [<- | H]; [reflexivity|]). destruct H.
Qed.
Print Assumptions C13_default_capabilities.
(** a login request that fills in the default one is understood by the server *)
Theorem C13_default_login : forall user auth plugin, no_nul user -> no_nul plugin -> str_ok auth ->
  server_login (write_handshake_response
    (mk_hr (hr_cap default_response) (hr_max_packet default_response) (hr_charset default_response) user auth [] plugin []))
  = Some (mk_login 0x1be6207 0xffffff 33 user auth None (Some plugin) (Some []), []).
Proof.
  intros user auth plugin Hu Hp Ha. rewrite login_decodes; [reflexivity| |left; reflexivity].
  split; [apply N.ltb_lt; reflexivity|]. split; [apply N.ltb_lt; reflexivity|]. split; [apply N.ltb_lt; reflexivity|].
  split; [exact Hu|]. split; [intros H; exact H|]. split; [exact Hp|]. split; [exact Ha|]. split; [constructor|]. split; [apply N.ltb_lt; reflexivity|discriminate].
Qed.
Print Assumptions C13_default_login.

(** ** C15: exactly when the response is accepted *)
(** If the stored secret has no second 32 byte preimage (otherwise other responses would be accepted too), a
    server accepts the response only if its nonce makes no difference to the digest. *)
Theorem C15_accepted_exactly : forall (sha1 sha256 : bytes -> bytes) p pw seed nonce resp,
  (forall x, length (sha256 x) = 32%nat) ->
  (forall x, length x = 32%nat -> sha256 x = sha256 (sha256 pw) -> x = sha256 pw) ->
  new_auth_plugin (str "caching_sha2_password") = Ok p -> pw <> [] ->
  fst (gen_init_auth_resp sha1 sha256 p pw seed) = Ok resp ->
  let stored := sha256 (sha256 pw) in
  (sha2_accepts sha256 stored nonce resp <-> sha256 (stored ++ nonce) = sha256 stored).
Proof.
  intros sha1 sha256 p pw seed nonce resp L J Hp Hw Hr stored. rewrite (sha2_ignores_nonce sha1 sha256 p pw seed Hp Hw) in Hr. injection Hr as <-.
  set (r := scramble_caching_sha2 sha256 pw []).
  assert (E : bxor r (sha256 stored) = Some (sha256 pw)).
  { unfold r, scramble_caching_sha2. rewrite app_nil_r. apply bxor_zip_r. rewrite !L. reflexivity. }
  assert (X : forall r a b c, bxor r a = Some c -> bxor r b = Some c -> a = b).
  { clear. induction r as [|z r IH]; intros [|x a] [|y b] c; cbn; try discriminate; [reflexivity|].
    destruct (bxor r a) as [c1|] eqn:E1; [|discriminate]. destruct (bxor r b) as [c2|] eqn:E2; [|discriminate].
    intros K1 K2. injection K1 as <-. injection K2 as K2 <-. f_equal; [|apply (IH a b c2 E1 E2)].
    apply b2n_inj. apply (f_equal b2n) in K2. unfold xorb8 in K2. fold (b2n z) (b2n y) (b2n x) in K2.
    rewrite !b2n_n2b_small in K2 by (apply lxor_lt256; apply b2n_lt).
    apply (f_equal (N.lxor (b2n z))) in K2. rewrite <- !N.lxor_assoc, N.lxor_nilpotent, !N.lxor_0_l in K2. symmetry. exact K2. }
  assert (Y : forall r a c, bxor r a = Some c -> length c = length a).
  { clear. induction r as [|z r IH]; intros [|x a] c; cbn; try discriminate; [intros [= <-]; reflexivity|].
    destruct (bxor r a) as [c1|] eqn:E1; [|discriminate]. intros [= <-]. cbn. f_equal. apply IH. exact E1. }
  split.
  - intros (d & H1 & H2). pose proof (Y _ _ _ H1) as Ld. rewrite L in Ld. apply J in H2; [|exact Ld]. subst d. exact (X _ _ _ _ H1 E).
  - intros H. exists (sha256 pw). rewrite H. split; [exact E|reflexivity].
Qed.
Print Assumptions C15_accepted_exactly.

(** ** C20: parameters built with the constructors that no conversion uses *)
(** how the server reads the value of one parameter *)
Definition server_reads (p : stmt_value) (v : sql_value) : Prop :=
  forall rest, dvalue (column_type_code (sv_type p)) (sv_unsigned p) (write_binary_value (sv_val p) ++ rest) = Some (v, rest).
Theorem C20_constructors :
  (forall s, str_ok s -> server_reads (new_string s) (VBytes s)) /\
  (forall s, str_ok s -> server_reads (new_text s) (VBytes s)) /\
  (forall s, str_ok s -> server_reads (new_geometry s) (VBytes s)) /\
  (forall n, n < 2 ^ 16 -> server_reads (new_year n) (VInt (Z.of_N n))).
Proof.
  assert (DB : forall s rest, str_ok s -> dbind dlstr (fun s => dret (VBytes s)) (les_write (LesBytes s) ++ rest) = Some (VBytes s, rest)).
  { intros s rest Hs. rewrite (dbind_some _ _ _ _ _ (d_les s rest Hs)). reflexivity. }
  split; [|split; [|split]]; [intros s H rest; exact (DB s rest H)..|]. intros n H rest.
  change (dint 2 true (to_le_bytes 2 n ++ rest) = Some (VInt (Z.of_N n), rest)).
  unfold dint. rewrite <- wle_to_le. rewrite (dbind_some _ _ _ _ _ (d_le 2 n rest H)). reflexivity.
Qed.
Print Assumptions C20_constructors.
(** values of any type: DECIMALs are always announced as NEWDECIMAL and signed, other types as they are *)
Theorem C20_any_type : forall ct u v,
  (In ct [TDecimal; TNewDecimal] -> sv_type (sv_new ct u v) = TNewDecimal /\ sv_unsigned (sv_new ct u v) = false) /\
  (~ In ct [TDecimal; TNewDecimal] -> sv_type (sv_new ct u v) = ct /\ sv_unsigned (sv_new ct u v) = u) /\
  sv_val (sv_new ct u v) = v.
Proof. intros ct u v. split; [|split]; destruct ct; cbn; intuition discriminate. Qed.
Print Assumptions C20_any_type.

(** ** C27: a column is unsigned exactly when bit 5 of its flags is set *)
Theorem C27_unsigned_column : forall cd, cd_unsigned cd = N.testbit (cd_flags cd) 5.
Proof. intros cd. unfold cd_unsigned, contains. change CF_UNSIGNED with (2 ^ 5). rewrite land_bit. destruct (N.testbit (cd_flags cd) 5); reflexivity. Qed.
Print Assumptions C27_unsigned_column.
(** ** C27: the columns or parameters of a prepared statement, read from one buffer *)
Theorem C27_prepared_columns : forall defs rest, Forall coldef_ok defs ->
  read_prepare_defs (length defs) (concat (map coldef_wire defs) ++ rest) = (Ok defs, rest).
Proof.
  intros defs rest F. rewrite <- flat_map_concat_map. apply prepeat_app. intros d r Hd. apply read_coldef. exact (proj1 (Forall_forall _ _) F d Hd).
Qed.
Print Assumptions C27_prepared_columns.
Example C27_prepared_example : let d n := mk_cd (str "def") [] (str "t") (str "t") (str n) (str n) 63 20 TVarString 0 0 [] in
  Forall coldef_ok [d "a"%string; d "bc"%string] /\ read_prepare_defs 2 (coldef_wire (d "a"%string) ++ coldef_wire (d "bc"%string) ++ [x00]) = (Ok [d "a"%string; d "bc"%string], [x00]).
Proof. cbv zeta. split; [|vm_compute; reflexivity]. repeat constructor; vm_compute; try reflexivity; discriminate. Qed.

(** ** C35: the type of a column described by a table map *)
(** what is known about a column has the announced type, with the storage variants merged *)
Theorem C35_column_types : forall ct bs m rest, read_column_meta ct bs = (Ok m, rest) ->
  column_type_of_meta m = match ct with
    | TTimestamp2 => TTimestamp | TDateTime2 => TDateTime
    | TTinyBlob | TMediumBlob | TLongBlob => TBlob
    | TVarchar => TVarString
    | ct => ct
    end.
Proof.
  intros ct bs m rest H.
  assert (P : forall {A} (p : parser A) (f : A -> column_meta), pmap f p bs = (Ok m, rest) -> exists a, m = f a).
  { intros A p f. unfold pmap, pbind, pret. destruct (p bs) as [[a| | |] r]; cbn; intros E; try discriminate E. injection E as <- _. exists a. reflexivity. }
  assert (P2 : forall {A} (p q : parser A) (f : A -> A -> column_meta), pbind p (fun a => pbind q (fun b => pret (f a b))) bs = (Ok m, rest) -> exists a b, m = f a b).
  { intros A p q f E. apply pbind_inv in E as (a & r & _ & E). apply pbind_inv in E as (b & r' & _ & E). injection E as <- _. exists a, b. reflexivity. }
  destruct ct; cbn [read_column_meta] in H; try (injection H as <- _; reflexivity); try discriminate H;
    try (apply P in H as [a ->]; reflexivity); try (apply P2 in H as (a & b & ->); reflexivity).
  apply pbind_inv in H as (a & r & _ & H). apply pbind_inv in H as (b & r' & _ & H).
  destruct (N.lor a 240 =? 0xf7) eqn:E1; [apply N.eqb_eq in E1; rewrite E1 in H; injection H as <- _; reflexivity|].
  destruct (N.lor a 240 =? 0xfe) eqn:E2; [apply N.eqb_eq in E2; rewrite E2 in H; injection H as <- _; reflexivity|].
  apply N.eqb_neq in E1, E2. exfalso. revert H. generalize (N.lor a 240), E1, E2. clear.
  intros n N1 N2. destruct n as [|n]; [discriminate|]. do 8 (destruct n as [n|n|]; try discriminate); congruence.
Qed.
Print Assumptions C35_column_types.

(** ** C39: typed views of an event *)
(** An event can be taken as one of its own type and no other: then its body is decoded *)
Theorem C39_typed : forall A k (read : parser A) e,
  (ev_kind e = k -> forall v, event_into k read e = Ok v <-> exists d, fst (read (ev_data e)) = Ok d /\ v = (ev_header e, d)) /\
  (ev_kind e = k -> forall x, event_into k read e = Err x <-> fst (read (ev_data e)) = Err x) /\
  (ev_kind e <> k -> event_into k read e = Err EBinlogEvent).
Proof.
  intros A k read e. unfold event_into. split; [|split].
  - intros <-. intros v. replace (match ev_kind e with _ => _ end) with true; cycle 1. { destruct (ev_kind e); reflexivity. }
    destruct (fst (read (ev_data e))) as [d| | |]; cbn; split; intros H; try discriminate H; try (destruct H as (d' & H & _); discriminate H).
    + injection H as <-. exists d. auto.
    + destruct H as (d' & H & ->). injection H as <-. reflexivity.
  - intros <-. intros x. replace (match ev_kind e with _ => _ end) with true; cycle 1. { destruct (ev_kind e); reflexivity. }
    destruct (fst (read (ev_data e))) as [d| | |]; cbn; split; intros H; try discriminate H; congruence.
  - intros H. destruct (ev_kind e), k; try reflexivity; congruence.
Qed.
Print Assumptions C39_typed.

(** ** C43: the options of a stream *)
Inductive setting : Type :=
| SetPos (n : N) | SetFile (s : bytes) | SetServer (n : N) | AddSid (s : sid_range) | AddSids (l : list sid_range)
| SetNonBlock (b : bool) | SetValidate (b : bool) | SetHeartbeat (ns : N).
Definition set_option (o : binlog_options) (s : setting) : binlog_options :=
  match s with
  | SetPos n => bo_set_pos n o | SetFile f => bo_set_filename f o | SetServer n => bo_set_server_id n o
  | AddSid r => bo_sid r o | AddSids l => bo_add_sids l o
  | SetNonBlock b => bo_set_non_block b o | SetValidate b => bo_set_validate b o | SetHeartbeat n => bo_set_heartbeat n o
  end.
(** the last of the values that [f] finds *)
Definition latest {A} (f : setting -> option A) (l : list setting) (default : A) : A :=
  fold_left (fun a s => match f s with Some x => x | None => a end) l default.
(** However often and in whatever order options are set: the latest value counts, positions are collected *)
Theorem C43_options : forall l, let o := fold_left set_option l bo_new in
  bo_pos o = latest (fun s => match s with SetPos n => Some n | _ => None end) l 4 /\
  bo_filename o = latest (fun s => match s with SetFile f => Some f | _ => None end) l [] /\
  bo_server_id o = latest (fun s => match s with SetServer n => Some n | _ => None end) l 0 /\
  bo_non_block o = latest (fun s => match s with SetNonBlock b => Some b | _ => None end) l false /\
  bo_validate o = latest (fun s => match s with SetValidate b => Some b | _ => None end) l false /\
  bo_heartbeat o = latest (fun s => match s with SetHeartbeat n => Some n | _ => None end) l 30000000000 /\
  bo_sids o = concat (map (fun s => match s with AddSid r => [r] | AddSids rs => rs | _ => [] end) l).
Proof.
  intros l. cbv zeta.
  assert (G : forall l o, let o' := fold_left set_option l o in
    bo_pos o' = latest (fun s => match s with SetPos n => Some n | _ => None end) l (bo_pos o) /\
    bo_filename o' = latest (fun s => match s with SetFile f => Some f | _ => None end) l (bo_filename o) /\
    bo_server_id o' = latest (fun s => match s with SetServer n => Some n | _ => None end) l (bo_server_id o) /\
    bo_non_block o' = latest (fun s => match s with SetNonBlock b => Some b | _ => None end) l (bo_non_block o) /\
    bo_validate o' = latest (fun s => match s with SetValidate b => Some b | _ => None end) l (bo_validate o) /\
    bo_heartbeat o' = latest (fun s => match s with SetHeartbeat n => Some n | _ => None end) l (bo_heartbeat o) /\
    bo_sids o' = bo_sids o ++ concat (map (fun s => match s with AddSid r => [r] | AddSids rs => rs | _ => [] end) l)).
  { clear l. induction l as [|s l IH]; intros o; cbv zeta; [cbn; rewrite app_nil_r; repeat (split; [reflexivity|]); reflexivity|].
    cbn [fold_left]. specialize (IH (set_option o s)). cbv zeta in IH. destruct IH as (H1 & H2 & H3 & H4 & H5 & H6 & H7).
    rewrite H1, H2, H3, H4, H5, H6, H7. unfold latest. cbn [fold_left map concat].
    destruct s; cbn; rewrite ?app_nil_l, <- ?app_assoc; repeat (split; [reflexivity|]); reflexivity. }
  exact (G l bo_new).
Qed.
Print Assumptions C43_options.

(** *** Examples *)
Example C06_packet_example : read_packet [x02; x00; x00; x07; x61; x62; x63] = (Ok (mk_packet 2 7 [x61; x62]), [x63]).
Proof. vm_compute. reflexivity. Qed.
Example C39_typed_example :
  let e := mk_event KXid (mk_header 0 EtXid 0 27 0 0) [x01; x00; x00; x00; x00; x00; x00; x00] in
  event_into KXid read_xid e = Ok (mk_header 0 EtXid 0 27 0 0, 1) /\ event_into KStop (pret tt) e = Err EBinlogEvent.
Proof. vm_compute. split; reflexivity. Qed.
Example C43_options_example :
  bo_pos (fold_left set_option [SetPos 7; SetValidate true; SetPos 9] bo_new) = 9.
Proof. reflexivity. Qed.
(** a digest of 32 bytes that keeps 32 byte strings as they are and shortens or pads the others *)
Definition toy_digest (x : bytes) : bytes :=
  if (length x =? 32)%nat then x else firstn 32 (skipn 32 x ++ repeat x00 32).
Example C15_accepted_exactly_example :
  (forall x, length (toy_digest x) = 32%nat) /\
  (forall x, length x = 32%nat -> toy_digest x = toy_digest (toy_digest (str "pw")) -> x = toy_digest (str "pw")) /\
  toy_digest (toy_digest (toy_digest (str "pw")) ++ str "nonce") <> toy_digest (toy_digest (toy_digest (str "pw"))).
Proof.
  assert (L : forall x, length (toy_digest x) = 32%nat).
  { intros x. unfold toy_digest. destruct (Nat.eqb_spec (length x) 32) as [E|_]; [exact E|].
    rewrite firstn_length, app_length, repeat_length. lia. }
  assert (I : forall x, length x = 32%nat -> toy_digest x = x). { intros x E. unfold toy_digest. rewrite E. reflexivity. }
  split; [exact L|]. split; [|vm_compute; discriminate]. intros x E H. rewrite (I x E), (I _ (L _)) in H. exact H.
Qed.
Example C35_column_types_example : read_column_meta TLongBlob [x04; x09] = (Ok (MBlob 4), [x09]).
Proof. reflexivity. Qed.
