(** * C61: text *)
From Coq Require Import Strings.String.
From Coq Require Import List NArith ZArith Lia Arith Bool.
From Verif Require Import Model.Base Model.Utf8 Model.Flags Model.Packet Model.Col Model.Extract Model.Rows Model.Auth Model.Cmd Model.Stmt
  Spec.Nums Spec.Wire Spec.Packets Spec.Values Spec.ExtractSpec Spec.EventBodies Spec.Unicode Spec.BinlogValues Proofs.UnicodeProofs Proofs.PacketProofs Proofs.ExtractProofs Proofs.RowsProofs
  Properties.C09_C13_Packets Properties.C25_C26_Extract Properties.C34_C36_Rows.
Import ListNotations.
Open Scope N_scope.

(** Bytes are taken as text exactly if they are the encoding of a sequence of characters, and then unchanged *)
Theorem C61_exact : forall bs,
  ((exists text, Forall scalar text /\ bs = utf8_text text) -> from_utf8 bs = Ok bs) /\
  (~ (exists text, Forall scalar text /\ bs = utf8_text text) -> from_utf8 bs = Err EUtf8).
Proof.
  intros bs. rewrite <- utf8_exact. unfold from_utf8. split; [intros ->; reflexivity|]. intros H. destruct (utf8_valid bs); [congruence|reflexivity].
Qed.
Print Assumptions C61_exact.
(** The characters are determined by the bytes *)
Theorem C61_unique : forall t u, Forall scalar t -> Forall scalar u -> utf8_text t = utf8_text u -> t = u.
Proof. exact text_inj. Qed.
Print Assumptions C61_unique.
(** A text sent in a column arrives in either protocol, and nothing else is taken for a text *)
Theorem C61_columns : forall ct wrap, string_kind ct = Some wrap ->
  In ct [TTinyBlob; TMediumBlob; TLongBlob; TBlob; TVarchar; TVarString; TString] ->
  (forall text rest, Forall scalar text -> N.of_nat (length (utf8_text text)) < 2 ^ 64 ->
     extract ct string_from_binary (wlstr (utf8_text text) ++ rest) = Ok (Some (utf8_text text)) /\
     string_from_text (Some (utf8_text text)) = Ok (Some (utf8_text text))) /\
  (forall (s rest : bytes) v, N.of_nat (length s) < 2 ^ 64 ->
     extract ct string_from_binary (wlstr s ++ rest) = Ok v \/ string_from_text (Some s) = Ok v ->
     exists text, Forall scalar text /\ v = Some (utf8_text text) /\ s = utf8_text text).
Proof.
  intros ct wrap K I. split.
  - intros text rest S L. destruct (C25_strings _ ct wrap rest K L I) as [_ ->]. destruct (C25_text_other (utf8_text text)) as (_ & _ & _ & -> & _).
    rewrite valid_text by exact S. auto.
  - intros s rest v L. destruct (C25_strings _ ct wrap rest K L I) as [_ ->]. destruct (C25_text_other s) as (_ & _ & _ & Et & _).
    change (@Some (list byte) s) with (@Some bytes s). rewrite Et. destruct (utf8_valid s) eqn:V; intros [E|E]; try discriminate; injection E as <-; apply utf8_exact in V; destruct V as (text & S & ->); eauto.
Qed.
Print Assumptions C61_columns.
(** Names of schemas and tables, in a binlog; and messages of errors *)
Theorem C61_names : forall table_id flags schema table tys ms nulls, Forall scalar schema -> Forall scalar table ->
  short (utf8_text schema) -> short (utf8_text table) ->
  N.of_nat (length tys) < 2 ^ 32 -> N.of_nat (length (concat (map type_meta tys))) < 2 ^ 64 ->
  length nulls = ((length tys + 7) / 8)%nat -> Forall sql_type_ok tys -> map type_desc tys = map Some ms ->
  table_map_of (mk_tmd table_id flags (table_map_bytes (utf8_text schema) (utf8_text table) tys nulls)) =
    Ok (mk_table_map (utf8_text schema) (utf8_text table) ms nulls).
Proof. intros. apply C35_table_map; auto using valid_text. Qed.
Print Assumptions C61_names.
Theorem C61_errors : forall cap code state msg, code < 2 ^ 16 -> Forall scalar state -> length (utf8_text state) = 5%nat -> Forall scalar msg ->
  cap_protocol_41 cap = true ->
  exists p, read_com_response cap (err_wire cap code (utf8_text state) (utf8_text msg)) = (Ok (CrErr p), []) /\
    error_of_err_packet p = ESql code x23 (utf8_text state) (utf8_text msg).
Proof. intros. apply C09_err_surfaces; auto using valid_text. Qed.
Print Assumptions C61_errors.

(** *** Examples: one character of each length; a surrogate, an overlong form, a value past the last, a stray and a missing byte *)
Example C61_example : Forall scalar [0x41; 0xE9; 0x20AC; 0x1D11E] /\
  utf8_text [0x41; 0xE9; 0x20AC; 0x1D11E] = [x41; xc3; xa9; xe2; x82; xac; xf0; x9d; x84; x9e] /\
  from_utf8 [x41; xc3; xa9; xe2; x82; xac; xf0; x9d; x84; x9e] = Ok [x41; xc3; xa9; xe2; x82; xac; xf0; x9d; x84; x9e] /\
  Forall (fun bs => from_utf8 bs = Err EUtf8) [[xed; xa0; x80]; [xc1; x81]; [xe0; x9f; xbf]; [xf0; x8f; xbf; xbf]; [xf4; x90; x80; x80]; [x80]; [xe2; x82]].
Proof.
  split; [repeat apply Forall_cons; try apply Forall_nil; unfold scalar; lia|].
  split; [reflexivity|]. split; [reflexivity|]. repeat constructor.
Qed.
Example C61_example_names : short (utf8_text [0x7D4; 0x4E2D]) /\ Forall scalar [0x7D4; 0x4E2D] /\
  table_map_of (mk_tmd 1 1 (table_map_bytes (utf8_text [0x7D4; 0x4E2D]) (utf8_text [0xE9]) [SInt] [x00])) =
    Ok (mk_table_map [xdf; x94; xe4; xb8; xad] [xc3; xa9] [MLong] [x00]).
Proof.
  split; [|split; [repeat apply Forall_cons; try apply Forall_nil; unfold scalar; lia|]].
  - unfold short. vm_compute. reflexivity.
  - vm_compute. reflexivity.
Qed.
