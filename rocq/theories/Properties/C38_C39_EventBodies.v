(** C38, C39: GTID sets and fixed-layout event bodies.  Layouts: Spec/EventBodies.v. *)
From Coq Require Import Strings.String.
From Verif Require Import Model.Base Model.BytesParser Model.Auth Model.EventBody Spec.Wire Spec.EventBodies
  Proofs.EventBodyProofs.
Open Scope N_scope.

(** *** C38 *)
Theorem C38_exact : forall rs, Forall range_ok rs -> NoDup (map fst rs) -> N.of_nat (length (gtid_set_bytes rs)) < 2 ^ 32 ->
  gtid_set (gtid_set_bytes rs) = Ok (map range_value rs).
Proof. exact gtid_set_exact. Qed.
Print Assumptions C38_exact.
(** as sets of transactions *)
Theorem C38_members : forall rs sid gno, Forall range_ok rs ->
  (in_decoded (map range_value rs) sid gno <-> in_encoded rs sid gno).
Proof. exact gtid_members. Qed.
Print Assumptions C38_members.
(** empty, unordered, overlapping or touching intervals are rejected, wherever they occur *)
Theorem C38_reject : forall good bad sid more, Forall range_ok good -> sid < 2 ^ 128 ->
  Forall (fun iv => fst iv < 2 ^ 64 /\ snd iv < 2 ^ 64) bad -> ~ intervals_ok 0 bad ->
  N.of_nat (length (gtid_set_bytes (good ++ (sid, bad) :: more))) < 2 ^ 32 ->
  gtid_set (gtid_set_bytes (good ++ (sid, bad) :: more)) = Err EConstraint.
Proof. exact gtid_set_reject. Qed.
Print Assumptions C38_reject.
(** whatever is accepted is the encoding of a well-formed set; of a sid listed twice the last
    entry counts *)
Theorem C38_sound : forall bs m, gtid_set bs = Ok m ->
  exists rs trailing, Forall range_ok rs /\ bs = gtid_set_bytes rs ++ trailing /\ m = map range_value (last_per_sid rs).
Proof. exact gtid_set_only. Qed.
Print Assumptions C38_sound.
Example C38_example : let rs := [(7, [(1, 5); (6, 7)]); (9, [])] in
  Forall range_ok rs /\ NoDup (map fst rs) /\
  gtid_set (gtid_set_bytes rs) = Ok [(7, mk_gtid_range 7 [(1, 4); (6, 6)]); (9, mk_gtid_range 9 [])] /\
  gtid_set (gtid_set_bytes [(7, [(1, 5); (5, 7)])]) = Err EConstraint /\
  gtid_set (gtid_set_bytes [(7, [(1, 5)]); (7, [(9, 10)])]) = Ok [(7, mk_gtid_range 7 [(9, 9)])].
Proof.
  cbv zeta. split; [|split; [|split; [vm_compute; reflexivity|split; vm_compute; reflexivity]]].
  - repeat constructor.
  - repeat constructor; cbn; intuition discriminate.
Qed.

(** *** C39 *)
Theorem C39_gtid : forall flags sid gno ts rest, flags < 2 ^ 8 -> sid < 2 ^ 128 -> gno < 2 ^ 64 ->
  match ts with
  | Some (t, c, s) => t < 2 ^ 8 /\ c < 2 ^ 64 /\ s < 2 ^ 64
  | None => N.of_nat (length rest) < 17
  end ->
  read_gtid_log (gtid_body flags sid gno ts ++ rest) =
    (Ok (match ts with Some (t, c, s) => mk_gtid_log flags sid gno t c s | None => mk_gtid_log flags sid gno 0 0 0 end), rest).
Proof. exact gtid_read. Qed.
Print Assumptions C39_gtid.
Theorem C39_anonymous_gtid : forall bs, read_anonymous_gtid_log bs = read_gtid_log bs.
Proof. exact anonymous_eq. Qed.
Print Assumptions C39_anonymous_gtid.
Theorem C39_rotate : forall pos name, pos < 2 ^ 64 -> read_rotate (wle 8 pos ++ name) = (Ok (pos, name), []).
Proof. exact rotate_read. Qed.
Print Assumptions C39_rotate.
Theorem C39_xid : forall x rest, x < 2 ^ 64 -> read_xid (wle 8 x ++ rest) = (Ok x, rest).
Proof. exact xid_read. Qed.
Print Assumptions C39_xid.
Theorem C39_rand : forall a b rest, a < 2 ^ 64 -> b < 2 ^ 64 -> read_rand (wle 8 a ++ wle 8 b ++ rest) = (Ok (a, b), rest).
Proof. exact rand_read. Qed.
Print Assumptions C39_rand.
(** keys other than the combinations of LAST_INSERT_ID (1) and INSERT_ID (2) are rejected *)
Theorem C39_intvar : forall key value rest, key < 2 ^ 8 -> value < 2 ^ 64 ->
  read_intvar (wle 1 key ++ wle 8 value ++ rest) =
    if key <? 4 then (Ok (key, value), rest) else (Err EConstraint, wle 8 value ++ rest).
Proof. exact intvar_read. Qed.
Print Assumptions C39_intvar.
Theorem C39_incident : forall t msg rest, t < 2 ^ 16 -> short msg ->
  read_incident (wle 2 t ++ wstr1 msg ++ rest) = (Ok (mk_incident t (N.of_nat (length msg)) msg), rest).
Proof. exact incident_read. Qed.
Print Assumptions C39_incident.
Theorem C39_user_var : forall name is_null value, N.of_nat (length name) < 2 ^ 32 -> is_null < 2 ^ 8 ->
  read_user_var (wle 4 (N.of_nat (length name)) ++ name ++ wle 1 is_null ++ value) =
    (Ok (mk_user_var (N.of_nat (length name)) name is_null value), []).
Proof. exact user_var_read. Qed.
Print Assumptions C39_user_var.
(** its value; the flags byte may be missing *)
Theorem C39_user_var_value : forall t charset value (flags : option bool), t < 2 ^ 8 -> charset < 2 ^ 32 ->
  N.of_nat (length value) < 2 ^ 32 ->
  read_user_var_value (wle 1 t ++ wle 4 charset ++ wle 4 (N.of_nat (length value)) ++ value ++
    match flags with Some f => [if f then x01 else x00] | None => [] end) =
    (Ok (mk_user_var_value t charset value (if flags then if match flags with Some f => f | None => false end then 1 else 0 else 0)), []).
Proof. exact user_var_value_read. Qed.
Print Assumptions C39_user_var_value.
Theorem C39_user_var_flags : forall t charset value f, t < 2 ^ 8 -> charset < 2 ^ 32 -> N.of_nat (length value) < 2 ^ 32 ->
  2 <= f -> f < 2 ^ 8 ->
  fst (read_user_var_value (wle 1 t ++ wle 4 charset ++ wle 4 (N.of_nat (length value)) ++ value ++ wle 1 f)) = Err EConstraint.
Proof. exact user_var_flags_reject. Qed.
Print Assumptions C39_user_var_flags.
Theorem C39_query : forall proxy exec schema err vars query, proxy < 2 ^ 32 -> exec < 2 ^ 32 -> short schema -> err < 2 ^ 16 ->
  N.of_nat (length vars) < 2 ^ 16 ->
  read_query_data (wle 4 proxy ++ wle 4 exec ++ wle 1 (N.of_nat (length schema)) ++ wle 2 err ++ wle 2 (N.of_nat (length vars)) ++
     vars ++ schema ++ [x00] ++ query) =
  (Ok (mk_query_data proxy exec (N.of_nat (length schema)) err (N.of_nat (length vars)) vars schema query), []).
Proof. exact query_read. Qed.
Print Assumptions C39_query.
Theorem C39_status_vars : forall vs, Forall status_var_ok vs ->
  read_status_vars (concat (map status_var_bytes vs)) = (Ok vs, []).
Proof. exact status_vars_read. Qed.
Print Assumptions C39_status_vars.
Theorem C39_status_var_unknown : forall k rest, 14 <= b2n k -> read_status_vars (k :: rest) = (Err EConstraint, rest).
Proof. exact status_var_unknown. Qed.
Print Assumptions C39_status_var_unknown.
(** Finding: a statement that updated more databases than MySQL lists is logged with the count 254 and
    no names; the names are nevertheless looked for *)
Theorem C39_over_max_dbs_refuted : forall rest, (length (filter (fun b => Byte.eqb b x00) rest) < 254)%nat ->
  fst (read_status_vars (wle 1 12 ++ wle 1 254 ++ rest)) = Err (EIncomplete None).
Proof. exact over_max_dbs. Qed.
Print Assumptions C39_over_max_dbs_refuted.
Theorem C39_load : forall proxy exec skip a b c d e f g fields table schema file,
  proxy < 2 ^ 32 -> exec < 2 ^ 32 -> skip < 2 ^ 32 -> Forall (fun x => x < 2 ^ 8) [a; b; c; d; e; f; g] ->
  load_names_ok fields table schema file -> N.of_nat (length (load_names fields table schema file)) < 2 ^ 32 ->
  read_load (wle 4 proxy ++ wle 4 exec ++ wle 4 skip ++ wle 1 (N.of_nat (length table)) ++ wle 1 (N.of_nat (length schema)) ++
     wle 4 (N.of_nat (length fields)) ++ wle 1 a ++ wle 1 b ++ wle 1 c ++ wle 1 d ++ wle 1 e ++ wle 1 f ++ wle 1 g ++
     load_names fields table schema file) =
  (Ok (mk_load proxy exec skip (N.of_nat (length table)) (N.of_nat (length schema)) (N.of_nat (length fields)) a b c d e f g
     (map (fun f => n2b (N.of_nat (length f))) fields) (concat (map wcstr fields)) table schema file), []).
Proof. exact load_read. Qed.
Print Assumptions C39_load.
Theorem C39_new_load : forall proxy exec skip ft eb lt ls es opt fields table schema file,
  proxy < 2 ^ 32 -> exec < 2 ^ 32 -> skip < 2 ^ 32 -> Forall short [ft; eb; lt; ls; es] -> opt < 2 ^ 8 ->
  load_names_ok fields table schema file -> N.of_nat (length (load_names fields table schema file)) < 2 ^ 32 ->
  read_new_load (wle 4 proxy ++ wle 4 exec ++ wle 4 skip ++ wle 1 (N.of_nat (length table)) ++ wle 1 (N.of_nat (length schema)) ++
     wle 4 (N.of_nat (length fields)) ++ wstr1 ft ++ wstr1 eb ++ wstr1 lt ++ wstr1 ls ++ wstr1 es ++ wle 1 opt ++
     load_names fields table schema file) =
  (Ok (mk_new_load proxy exec skip (N.of_nat (length table)) (N.of_nat (length schema)) (N.of_nat (length fields))
     (N.of_nat (length ft)) ft (N.of_nat (length eb)) eb (N.of_nat (length lt)) lt (N.of_nat (length ls)) ls
     (N.of_nat (length es)) es opt
     (map (fun f => n2b (N.of_nat (length f))) fields) (concat (map wcstr fields)) table schema file), []).
Proof. exact new_load_read. Qed.
Print Assumptions C39_new_load.
Theorem C39_execute_load_query : forall a b c d e f g h i payload, a < 2 ^ 32 -> b < 2 ^ 32 -> c < 2 ^ 8 -> d < 2 ^ 16 ->
  e < 2 ^ 16 -> f < 2 ^ 32 -> g < 2 ^ 32 -> h < 2 ^ 32 -> i < 2 ^ 8 ->
  read_execute_load_query (wle 4 a ++ wle 4 b ++ wle 1 c ++ wle 2 d ++ wle 2 e ++ wle 4 f ++ wle 4 g ++ wle 4 h ++ wle 1 i ++ payload) =
    (Ok (mk_elq a b c d e f g h i payload), []).
Proof. exact execute_load_query_read. Qed.
Print Assumptions C39_execute_load_query.
Theorem C39_begin_load : forall id block, id < 2 ^ 32 -> read_begin_load_query (wle 4 id ++ block) = (Ok (id, block), []).
Proof. exact begin_load_read. Qed.
Print Assumptions C39_begin_load.
Theorem C39_exec_load : forall id rest, id < 2 ^ 32 -> read_exec_load (wle 4 id ++ rest) = (Ok id, rest).
Proof. exact exec_load_read. Qed.
Print Assumptions C39_exec_load.
Theorem C39_delete_file : forall id rest, id < 2 ^ 32 -> read_delete_file (wle 4 id ++ rest) = (Ok id, rest).
Proof. exact delete_file_read. Qed.
Print Assumptions C39_delete_file.
(** Finding: the block of a create-file or append-block event is cut at its first zero byte, and
    the event is rejected if its block has none *)
Theorem C39_block_refuted : forall id block, id < 2 ^ 32 ->
  read_create_file (wle 4 id ++ block) =
    (match position x00 block with Some k => Ok (id, firstn k block) | None => Err (EIncomplete None) end, []) /\
  read_append_block (wle 4 id ++ block) =
    (match position x00 block with Some k => Ok (id, firstn k block) | None => Err (EIncomplete None) end, []).
Proof. exact create_file_read. Qed.
Print Assumptions C39_block_refuted.

Example C39_example_load : let fields := [str "id"; str "name"] in
  load_names_ok fields (str "t1") (str "test") (str "/tmp/x") /\
  N.of_nat (length (load_names fields (str "t1") (str "test") (str "/tmp/x"))) = 25.
Proof.
  cbv zeta. split; [|reflexivity]. unfold load_names_ok, no_nul.
  repeat split; repeat constructor; intros H; repeat destruct H as [H|H]; try discriminate; exact H.
Qed.
Example C39_example_vars :
  read_status_vars (concat (map status_var_bytes [SvFlags2 0; SvCatalogNz (str "std"); SvUpdatedDbNames [str "a"; str "b"]; SvMicroSeconds 12])) =
    (Ok [SvFlags2 0; SvCatalogNz (str "std"); SvUpdatedDbNames [str "a"; str "b"]; SvMicroSeconds 12], []) /\
  Forall status_var_ok [SvFlags2 0; SvCatalogNz (str "std"); SvMicroSeconds 12] /\
  fst (read_status_vars (wle 1 12 ++ wle 1 254 ++ status_var_bytes (SvMicroSeconds 12))) = Err (EIncomplete None) /\
  read_append_block (wle 4 1 ++ str "a,b") = (Err (EIncomplete None), []).
Proof.
  split; [vm_compute; reflexivity|]. split; [repeat constructor|]. split; vm_compute; reflexivity.
Qed.
