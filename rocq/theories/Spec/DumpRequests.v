(** * Independent specification: requests for a binlog

    The layouts of the two requests, from the MySQL documentation (COM_BINLOG_DUMP, COM_BINLOG_DUMP_GTID),
    and what a sequence of calls of a builder asks for. *)
From Coq Require Import ZArith.
From Verif Require Import Model.Base Model.Utf8 Model.Cmd Spec.Nums Spec.Accepts Spec.AcceptsEvents.
Open Scope N_scope.

(** any command is taken *)
Definition dump_layout (d : binlog_dump) (w : bytes) : Prop :=
  utf8_valid (bd_filename d) = true /\
  fields [byte1 (command_byte (bd_cmd d)); is_le 4 (bd_pos d); is_le 2 (bd_flags d); is_le 4 (bd_server_id d); exactly (bd_filename d)] w.
(** a source of transactions and the intervals of transactions of it *)
Definition i64_layout (z : Z) (w : bytes) : Prop := exists n, is_le 8 n w /\ twos 64 n z.
Definition interval_layout (i : Z * Z) : bytes -> Prop := fun w => fields [i64_layout (fst i); i64_layout (snd i)] w.
Definition source_layout (s : sid_range) (w : bytes) : Prop :=
  16 * N.of_nat (length (sid_intervals s)) < 2 ^ 63 /\
  fields ([is_le 16 (sid_id s); is_le 8 (N.of_nat (length (sid_intervals s)))] ++ map interval_layout (sid_intervals s)) w.
Definition sources_layout (l : list sid_range) (w : bytes) : Prop :=
  40 * N.of_nat (length l) < 2 ^ 63 /\ fields (is_le 8 (N.of_nat (length l)) :: map source_layout l) w.
(** the sources are in a block with its own length, whose further bytes are ignored *)
Definition sources_block (l : list sid_range) (w : bytes) : Prop :=
  exists block, behind_length (is_le 4) block w /\ fields [sources_layout l; leftover] block.
Definition dump_gtid_layout (d : binlog_dump_gtid) (w : bytes) : Prop :=
  (bg_flags d < 8 /\ utf8_valid (bg_filename d) = true) /\
  fields [byte1 (command_byte (bg_cmd d)); is_le 2 (bg_flags d); is_le 4 (bg_server_id d); behind_length (is_le 4) (bg_filename d);
          is_le 8 (bg_pos d); sources_block (bg_sids d)] w.

(** ** Builders *)
Inductive dump_call := CallPos (n : N) | CallFile (s : bytes) | CallServer (n : N) | CallNonBlock (b : bool).
Inductive gtid_call := GCallPos (n : N) | GCallFile (s : bytes) | GCallServer (n : N) | GCallNonBlock (b : bool)
  | GCallUseGtid (b : bool) | GCallSid (s : sid_range) | GCallSids (l : list sid_range).
(** what the last call that says something about it says, or else [a] *)
Definition last_said {C A} (says : C -> option A) (a : A) (calls : list C) : A :=
  fold_left (fun a c => match says c with Some x => x | None => a end) calls a.
Definition says_pos c := match c with CallPos n => Some n | _ => None end.
Definition says_file c := match c with CallFile s => Some s | _ => None end.
Definition says_server c := match c with CallServer n => Some n | _ => None end.
Definition says_non_block c := match c with CallNonBlock b => Some b | _ => None end.
(** reading begins at position 4 of the server's first log and waits for more at the end *)
Definition dump_asked (calls : list dump_call) : binlog_dump :=
  mk_bd CmdBinlogDump (last_said says_pos 4 calls) (if last_said says_non_block false calls then 1 else 0)
    (last_said says_server 0 calls) (last_said says_file [] calls).
Definition gsays_pos c := match c with GCallPos n => Some n | _ => None end.
Definition gsays_file c := match c with GCallFile s => Some s | _ => None end.
Definition gsays_server c := match c with GCallServer n => Some n | _ => None end.
Definition gsays_non_block c := match c with GCallNonBlock b => Some b | _ => None end.
Definition gsays_use_gtid c := match c with GCallUseGtid b => Some b | _ => None end.
(** sources are collected *)
Definition gsids c := match c with GCallSid s => [s] | GCallSids l => l | _ => [] end.
Definition gtid_asked (calls : list gtid_call) : binlog_dump_gtid :=
  mk_bdg CmdBinlogDumpGtid
    ((if last_said gsays_use_gtid false calls then 4 else 2) + (if last_said gsays_non_block false calls then 1 else 0))
    (last_said gsays_server 0 calls) (last_said gsays_file [] calls) (last_said gsays_pos 4 calls) (flat_map gsids calls).
(** the methods of the builders *)
Definition dump_run (c : dump_call) : binlog_dump -> binlog_dump :=
  match c with CallPos n => bd_set_pos n | CallFile s => bd_set_filename s | CallServer n => bd_set_server_id n | CallNonBlock b => bd_non_block b end.
Definition gtid_run (c : gtid_call) : binlog_dump_gtid -> binlog_dump_gtid :=
  match c with
  | GCallPos n => bg_set_pos n | GCallFile s => bg_set_filename s | GCallServer n => bg_set_server_id n | GCallNonBlock b => bg_non_block b
  | GCallUseGtid b => bg_use_gtid b | GCallSid s => bg_sid s | GCallSids l => bg_add_sids l
  end.
