(** C19, continued: which requests for a binlog are read, and what any sequence of calls of a builder asks for *)
From Coq Require Import List NArith ZArith Lia Bool.
From Verif Require Import Model.Base Model.Cmd Spec.Nums Spec.Accepts Spec.DumpRequests Proofs.DumpRequestsProofs.
Import ListNotations.
Open Scope N_scope.

(** a request is read from exactly the byte strings with its layout *)
Theorem C19_accepts : takes_message read_binlog_dump dump_layout /\ takes_exactly read_binlog_dump_gtid dump_gtid_layout /\
  takes_exactly read_sid_data sources_layout.
Proof. split; [exact accepts_dump|]. split; [exact accepts_dump_gtid|exact te_sources]. Qed.
Print Assumptions C19_accepts.
(** whatever methods of a builder are called in whatever order, the last call on a setting counts and sources are collected *)
Theorem C19_builder_calls :
  (forall calls, fold_left (fun d c => dump_run c d) calls default_binlog_dump = dump_asked calls) /\
  (forall calls, fold_left (fun d c => gtid_run c d) calls default_binlog_dump_gtid = gtid_asked calls).
Proof. split; [exact dump_calls|exact gtid_calls]. Qed.
Print Assumptions C19_builder_calls.

Example C19_ex_calls :
  dump_asked [CallNonBlock true; CallPos 120; CallNonBlock false; CallFile [x61]; CallPos 7] = mk_bd CmdBinlogDump 7 0 0 [x61] /\
  gtid_asked [GCallSid (mk_sid 1 [(1, 5)%Z]); GCallUseGtid true; GCallNonBlock true; GCallSids [mk_sid 2 []]; GCallUseGtid false]
  = mk_bdg CmdBinlogDumpGtid 3 0 [] 4 [mk_sid 1 [(1, 5)%Z]; mk_sid 2 []].
Proof. split; reflexivity. Qed.
Example C19_ex_accepts : dump_layout (mk_bd CmdBinlogDump 4 0 9 [x61]) [x12; x04; x00; x00; x00; x00; x00; x09; x00; x00; x00; x61] /\
  forall d, ~ dump_layout d [x12; x04; x00; x00; x00; x00; x00; x09; x00; x00; x00; xff].
Proof.
  split; [apply (proj1 C19_accepts); reflexivity|]. intros d H. apply (proj1 C19_accepts) in H. revert H.
  match goal with |- fst ?x = _ -> _ => let y := eval vm_compute in x in change x with y end. discriminate.
Qed.
