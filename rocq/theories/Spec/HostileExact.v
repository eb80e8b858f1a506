(** * Specification: exactly when a peer brings a client down

    Spec/Hostile.v describes the messages that can be to blame.  Here it is said where among the messages they have to come. *)
From Coq Require Import Strings.String.
From Coq Require Import List NArith Bool.
From Verif Require Import Model.Base Model.Utf8 Model.Packet Model.Auth Model.Col Model.Row Model.Event Spec.Framing.
Import ListNotations.
Open Scope N_scope.

(** the bytes are the messages [earlier], then [msg], then anything *)
Definition follow (bs : bytes) (earlier : list bytes) (msg : bytes) : Prop :=
  exists w0 seqs w after, messages_wire earlier w0 /\ message_wire seqs msg w /\ bs = w0 ++ w ++ after.

(** what a statement without a result set waits through: messages that are neither OK nor ERR *)
Definition passed_over (msg : bytes) : Prop := exists b rest, msg = b :: rest /\ b <> x00 /\ b <> xff.

(** a message that is taken for a row: not empty, and not the end of the rows *)
Definition row_message (msg : bytes) : Prop :=
  exists b rest, msg = b :: rest /\ ~ (b = xfe /\ N.of_nat (length msg) <= 0xffffff).
(** a row that is returned *)
Definition sound_row (cts : list column_type) (msg : bytes) : Prop :=
  row_message msg /\ exists row, fst (read_binary_row cts msg) = Ok row.

(** an event of a kind that the library does not know *)
Definition unknown_event (crc : bytes -> N) (self : parser_v4) (validate : bool) (msg : bytes) : Prop :=
  exists ev, msg = x00 :: ev /\ fst (parse_event crc self validate ev) = Ok None.

(** a request to use another method *)
Definition switch_request (msg : bytes) : Prop :=
  exists name data, msg = xfe :: name ++ x00 :: data /\ ~ In x00 name /\ utf8_valid name = true.
(** further data that the method lets pass: any without a password or with the native method; once "fast
    authentication succeeded" with the other *)
Definition lets_pass (plugin password : bytes) (msgs : list bytes) : Prop :=
  ((plugin = str "mysql_native_password" \/ (plugin = str "caching_sha2_password" /\ password = [])) /\
    Forall (fun msg => exists data, msg = x01 :: data) msgs) \/
  (plugin = str "caching_sha2_password" /\ password <> [] /\ (msgs = [] \/ exists data, msgs = [x01 :: x03 :: data])).
