(** * Proofs about variables: setting them and reading them back *)
From Coq Require Import Strings.String Lia.
From Verif Require Import Model.Base Model.BytesParser Model.Utf8 Model.Bitmap Model.Auth Model.Fmt Model.Conn Model.Time Model.LenEnc Model.Col Model.Extract Model.Cmd Model.Stmt Model.Session
  Spec.Nums Spec.Wire Spec.Temporal Spec.Framing Spec.Session Spec.Packets Spec.Commands Spec.Values Spec.Execute Spec.ExtractSpec Spec.ResultSets Spec.SqlSpec Spec.Echo Spec.BothWays Spec.Programs Spec.Variables
  Proofs.BaseLemmas Proofs.BytesParserProofs Proofs.TimeProofs Proofs.ConnProofs Proofs.SqlProofs Proofs.CommandProofs Proofs.ScriptProofs Proofs.StreamProofs Proofs.BothWaysProofs.
Open Scope N_scope.

(** ** Reading the statements *)
Lemma let_facts b : is_let b = true -> is_space b = false /\ is_dig b = false /\ Byte.eqb b quote = false /\ Byte.eqb b backtick = false.
Proof.
  intros Hb. splits.
  - unfold is_let in Hb. unfold is_space. destruct (N.eqb_spec (b2n b) 32) as [E|]; [rewrite E in Hb; discriminate|].
    destruct (N.leb_spec 9 (b2n b)); [|reflexivity]. destruct (N.leb_spec (b2n b) 13); [|reflexivity].
    exfalso. revert Hb. rewrite !orb_true_iff, !andb_true_iff, !N.leb_le, !N.eqb_eq. lia.
  - unfold is_let in Hb. unfold is_dig. destruct (N.leb_spec 48 (b2n b)); [|reflexivity]. destruct (N.leb_spec (b2n b) 57); [|reflexivity].
    exfalso. revert Hb. rewrite !orb_true_iff, !andb_true_iff, !N.leb_le, !N.eqb_eq. lia.
  - apply byte_eqb_neq; intros ->; discriminate.
  - apply byte_eqb_neq; intros ->; discriminate.
Qed.
Lemma lex_ident esc n rest : word n -> ends rest -> lex esc (n ++ rest) = option_map (cons (TkWord n)) (lex esc rest).
Proof.
  intros W He. destruct n as [|b n]; [contradiction|]. destruct W as [Hb Hw]. destruct (let_facts b Hb) as (N1 & N2 & N3 & N4).
  apply lex_token; [exact N1|]. unfold token_of. cbn [app]. rewrite N3, N4, Hb, orb_true_r.
  change (b :: n ++ rest) with ((b :: n) ++ rest). rewrite span_all; [|exact Hw|destruct rest; [trivial|apply He]].
  cbn [forallb]. rewrite N2. cbn [andb]. destruct (beqb _ _ || beqb _ _)%bool; [|reflexivity].
  destruct rest as [|d r]; [reflexivity|]. destruct He as (_ & _ & Nq). rewrite (byte_eqb_neq d quote Nq). reflexivity.
Qed.
Lemma lex_quoted n p : quoted_as n p -> lex true (str "'" ++ n ++ str "'") = Some [TkText p].
Proof.
  intros Q. rewrite (lex_token true _ (TkText p) []); [reflexivity|reflexivity|].
  cbn [app]. change (str "'" ++ n ++ str "'") with (quote :: n ++ str "'"). unfold token_of. rewrite byte_eqb_refl.
  unfold quoted_as in Q. rewrite Q. reflexivity.
Qed.
Lemma lex_at rest : lex true (n2b 64 :: rest) = option_map (cons (TkSym (n2b 64))) (lex true rest).
Proof. apply lex_sym; reflexivity || discriminate. Qed.
Lemma lex_kw s rest : word (str s) -> ends rest -> lex true (str s ++ rest) = option_map (cons (TkWord (str s))) (lex true rest).
Proof. apply lex_ident. Qed.
Lemma equals_mark : lex true (str " = ?") = Some [TkSym (n2b 61); TkSym (n2b 63)].
Proof. vm_compute. reflexivity. Qed.
Lemma read_set_user n : word n -> statement_of (str "SET @" ++ n ++ str " = ?") = Some (SSetUser n).
Proof.
  intros W. unfold statement_of.
  change (str "SET @" ++ n ++ str " = ?") with (str "SET" ++ (n2b 32 :: n2b 64 :: n ++ str " = ?")).
  rewrite lex_kw; [|split; vm_compute; reflexivity|vm_compute; repeat split; discriminate].
  rewrite lex_space by reflexivity. rewrite lex_at. rewrite lex_ident; [|exact W|vm_compute; repeat split; discriminate].
  rewrite equals_mark. reflexivity.
Qed.
Lemma read_set (g : bool) n : word n -> statement_of (str (if g then "SET @@GLOBAL." else "SET @@")%string ++ n ++ str " = ?") = Some (SSet g n).
Proof.
  intros W. unfold statement_of. destruct g.
  - change (str "SET @@GLOBAL." ++ n ++ str " = ?") with (str "SET" ++ (n2b 32 :: n2b 64 :: n2b 64 :: str "GLOBAL" ++ (n2b 46 :: n ++ str " = ?"))).
    rewrite lex_kw; [|split; vm_compute; reflexivity|vm_compute; repeat split; discriminate].
    rewrite lex_space by reflexivity. rewrite !lex_at.
    assert (E : lex true (str "GLOBAL" ++ n2b 46 :: n ++ str " = ?") = Some (TkWord (str "GLOBAL") :: TkSym (n2b 46) :: TkWord n :: [TkSym (n2b 61); TkSym (n2b 63)])).
    { assert (T : token_of true (str "GLOBAL" ++ n2b 46 :: n ++ str " = ?") = Some (TkWord (str "GLOBAL"), n2b 46 :: n ++ str " = ?")) by reflexivity.
      rewrite (fun H => lex_token true _ _ _ H T) by reflexivity. rewrite lex_sym by (reflexivity || discriminate).
      rewrite lex_ident; [|exact W|vm_compute; repeat split; discriminate]. rewrite equals_mark. reflexivity. }
    rewrite E. reflexivity.
  - change (str "SET @@" ++ n ++ str " = ?") with (str "SET" ++ (n2b 32 :: n2b 64 :: n2b 64 :: n ++ str " = ?")).
    rewrite lex_kw; [|split; vm_compute; reflexivity|vm_compute; repeat split; discriminate].
    rewrite lex_space by reflexivity. rewrite !lex_at. rewrite lex_ident; [|exact W|vm_compute; repeat split; discriminate].
    rewrite equals_mark. reflexivity.
Qed.
Lemma read_select n : word n -> statement_of (str "SELECT @" ++ n) = Some (SSelectUser n).
Proof.
  intros W. unfold statement_of. change (str "SELECT @" ++ n) with (str "SELECT" ++ (n2b 32 :: n2b 64 :: n)).
  rewrite lex_kw; [|split; vm_compute; reflexivity|vm_compute; repeat split; discriminate].
  rewrite lex_space by reflexivity. rewrite lex_at.
  assert (E : lex true n = Some [TkWord n]) by (rewrite <- (app_nil_r n) at 1; rewrite lex_ident; [reflexivity|exact W|exact I]). rewrite E. reflexivity.
Qed.
Lemma read_assign n d : word n -> d <> [] -> forallb is_dig d = true ->
  statement_of (str "SELECT @" ++ n ++ str " := " ++ d) = Some (SAssignUser n d).
Proof.
  intros W Hd Hf. unfold statement_of.
  change (str "SELECT @" ++ n ++ str " := " ++ d) with (str "SELECT" ++ (n2b 32 :: n2b 64 :: n ++ (n2b 32 :: n2b 58 :: n2b 61 :: n2b 32 :: d))).
  rewrite lex_kw; [|split; vm_compute; reflexivity|vm_compute; repeat split; discriminate].
  rewrite lex_space by reflexivity. rewrite lex_at. rewrite lex_ident; [|exact W|vm_compute; repeat split; discriminate].
  rewrite lex_space by reflexivity. rewrite !lex_sym by (reflexivity || discriminate). rewrite lex_space by reflexivity.
  assert (E : lex true d = Some [TkNum d]).
  { rewrite <- (app_nil_r d) at 1. rewrite lex_number; [reflexivity| |exact I]. exists d, []. rewrite app_nil_r. auto. }
  rewrite E. reflexivity.
Qed.
Lemma read_show (g : bool) n p : quoted_as n p ->
  statement_of (str (if g then "SHOW GLOBAL VARIABLES LIKE '" else "SHOW VARIABLES LIKE '")%string ++ n ++ str "'") = Some (SShow g p).
Proof.
  intros Q. apply lex_quoted in Q. unfold statement_of. destruct g.
  - change (str "SHOW GLOBAL VARIABLES LIKE '" ++ n ++ str "'")
      with (str "SHOW" ++ (n2b 32 :: str "GLOBAL" ++ (n2b 32 :: str "VARIABLES" ++ (n2b 32 :: str "LIKE" ++ (n2b 32 :: str "'" ++ n ++ str "'"))))).
    rewrite lex_kw; [|split; vm_compute; reflexivity|vm_compute; repeat split; discriminate]. rewrite lex_space by reflexivity.
    rewrite lex_kw; [|split; vm_compute; reflexivity|vm_compute; repeat split; discriminate]. rewrite lex_space by reflexivity.
    rewrite lex_kw; [|split; vm_compute; reflexivity|vm_compute; repeat split; discriminate]. rewrite lex_space by reflexivity.
    rewrite lex_kw; [|split; vm_compute; reflexivity|vm_compute; repeat split; discriminate]. rewrite lex_space by reflexivity.
    rewrite Q. reflexivity.
  - change (str "SHOW VARIABLES LIKE '" ++ n ++ str "'")
      with (str "SHOW" ++ (n2b 32 :: str "VARIABLES" ++ (n2b 32 :: str "LIKE" ++ (n2b 32 :: str "'" ++ n ++ str "'")))).
    rewrite lex_kw; [|split; vm_compute; reflexivity|vm_compute; repeat split; discriminate]. rewrite lex_space by reflexivity.
    rewrite lex_kw; [|split; vm_compute; reflexivity|vm_compute; repeat split; discriminate]. rewrite lex_space by reflexivity.
    rewrite lex_kw; [|split; vm_compute; reflexivity|vm_compute; repeat split; discriminate]. rewrite lex_space by reflexivity.
    rewrite Q. reflexivity.
Qed.

(** ** Sizes *)
Definition arg_len (a : arg) : nat := match a with ADecimal s | AMyBit s | AString s | AVec s => length s | _ => 0 end.
Lemma les_len s : (length (les_write (LesBytes s)) <= 9 + length s)%nat.
Proof.
  unfold les_write. rewrite app_length. unfold lei_write, lei_from.
  destruct (blen s <=? 0xfb); [cbn [length]; lia|]. destruct (blen s <=? 0xffff); [cbn [length]; rewrite to_le_bytes_length; lia|].
  destruct (blen s <=? 0xffffff); cbn [length]; [rewrite firstn_length, to_le_bytes_length|rewrite to_le_bytes_length]; lia.
Qed.
Lemma value_len a : (length (write_binary_value (sv_val (to_col a))) <= 20 + arg_len a)%nat.
Proof.
  assert (Y : forall y m d, length (write_ymd y m d) = 4%nat) by reflexivity.
  assert (H : forall h m s, length (write_hms h m s) = 3%nat) by reflexivity.
  assert (T : forall t, (length (write_binary_time t) <= 20)%nat).
  { intros []. unfold write_binary_time. repeat match goal with |- context [if ?b then _ else _] => destruct b end; cbn; lia. }
  assert (U : forall t, (length (write_binary_datetime t) <= 20)%nat).
  { intros []. unfold write_binary_datetime. repeat match goal with |- context [if ?b then _ else _] => destruct b end; cbn; lia. }
  destruct a; cbn [to_col new_null]; try (cbn; lia); cbn [sv_val arg_len];
    try (match goal with |- context [write_binary_value (sv_val (?f ?x))] => unfold f end); cbn [sv_val write_binary_value];
    try (pose proof (les_len s); lia); try (pose proof (les_len bs); lia); try (pose proof (les_len display); lia); try (unfold new_bit; cbn [sv_val write_binary_value]; pose proof (les_len bs); lia).
  all: try (eapply Nat.le_trans; [first [apply T | apply U]|lia]).
Qed.
Lemma execute_len id a : (length (write_stmt_execute id [to_col a]) <= 40 + arg_len a)%nat.
Proof.
  unfold write_stmt_execute. cbn [map flat_map]. rewrite !app_length.
  assert (B : length (bm_from_iter [sv_is_null (to_col a)] 0) = 1%nat) by (destruct (sv_is_null (to_col a)); reflexivity).
  rewrite B. pose proof (value_len a). cbn [length write_u8 write_le_u32]. unfold write_le_u32, write_u8. rewrite !to_le_bytes_length. cbn [length]. lia.
Qed.
Lemma execute_sendable checks id a : short_arg a -> sendable checks (write_stmt_execute id [to_col a]).
Proof.
  intros S. right. pose proof (execute_len id a) as L. change (2 ^ 31) with 2147483648.
  assert (N.of_nat (arg_len a) <= 1073741824) by (destruct a; cbn [short_arg arg_len] in *; unfold short in *; change (2 ^ 30) with 1073741824 in *; lia). lia.
Qed.
Lemma text_sendable checks a n b : short n -> (length a <= 100)%nat -> (length b <= 100)%nat -> sendable checks (a ++ n ++ b).
Proof. intros S A B. right. rewrite !app_length. unfold short in S. change (2 ^ 30) with 1073741824 in S. change (2 ^ 31) with 2147483648. lia. Qed.

(** ** Asking a text *)
Definition settled {A} (r : res A) : Prop := (exists a, r = Ok a) \/ (exists e, r = Err e /\ e <> EIO).
Lemma settled_map {A B} (f : A -> B) r : settled r -> settled (rmap f r).
Proof. intros [(a & ->)|(e & -> & N)]; [left; eexists; reflexivity|right; exists e; split; [reflexivity|exact N]]. Qed.
Lemma settled_bind {A B} r (f : A -> res B) : settled r -> (forall a, settled (f a)) -> settled (rbind r f).
Proof. intros [(a & ->)|(e & -> & N)] H; [exact (H a)|right; exists e; split; [reflexivity|exact N]]. Qed.
Lemma settled_ok {A} (a : A) : settled (Ok a). Proof. left. eauto. Qed.
Lemma settled_utf8 s : settled (from_utf8 s).
Proof. rewrite from_utf8_cases. destruct (utf8_valid s); [left; eauto|right; eexists; split; [reflexivity|discriminate]]. Qed.
Lemma settled_i k s : settled (parse_i k s).
Proof.
  unfold parse_i. match goal with |- settled (let '(_, _) := ?x in _) => destruct x as [neg d] end.
  destruct (parse_nat d); [|right; eexists; split; [reflexivity|discriminate]].
  destruct neg; match goal with |- settled (if ?b then _ else _) => destruct b end;
    first [left; eexists; reflexivity|right; eexists; split; [reflexivity|discriminate]].
Qed.
Lemma settled_u k s : settled (parse_u k s).
Proof.
  unfold parse_u. match goal with |- settled (match ?x with _ => _ end) => destruct x end; [|right; eexists; split; [reflexivity|discriminate]].
  match goal with |- settled (if ?b then _ else _) => destruct b end;
    first [left; eexists; reflexivity|right; eexists; split; [reflexivity|discriminate]].
Qed.
Lemma as_text_settled D (R : readers D) q t : plain_ask q -> settled (as_text R q t).
Proof.
  intros P. destruct t as [s|]; [|rewrite null_text; apply settled_ok].
  assert (G : forall A B (f : A -> B) (p : bytes -> res A), (forall x, settled (p x)) -> settled (some_as f (text_parsed p (Some s)))).
  { intros A B f p H. apply settled_map. unfold text_parsed. apply settled_bind; [apply settled_utf8|]. intros x. apply settled_bind; [apply H|]. intros; apply settled_ok. }
  destruct q; cbn [as_text]; try (apply G; intros; first [apply settled_i | apply settled_u]);
    try (destruct P as [P|P]; [now contradiction P|cbn in P; repeat destruct P as [P|P]; discriminate || contradiction]).
  all: apply settled_map; try (unfold i24_from_text); try (unfold u24_from_text); try (unfold bool_from_text); try (unfold string_from_text).
  all: try apply settled_ok.
  all: apply settled_bind; [apply settled_utf8|]; intros x; try apply settled_ok.
  all: apply settled_bind; [first [apply settled_i|apply settled_u]|]; intros; apply settled_ok.
Qed.

(** ** The server *)
Lemma dialogue_app cap admit hs1 : forall hs2 s ms s2, dialogue cap admit s (hs1 ++ hs2) ms s2 ->
  exists ms1 s1 ms2, dialogue cap admit s hs1 ms1 s1 /\ dialogue cap admit s1 hs2 ms2 s2 /\ ms = ms1 ++ ms2.
Proof.
  induction hs1 as [|h hs1 IH]; intros hs2 s ms s2 H; cbn [app] in H.
  - exists [], s, ms. split; [constructor|auto].
  - inversion H as [|? ? m1 s1 ? m2 ? X Y]; subst. destruct (IH _ _ _ _ Y) as (a & s3 & b & A & B & ->).
    exists (m1 ++ a), s3, b. split; [econstructor; eauto|]. split; [exact B|apply app_assoc].
Qed.
Lemma opened_head id st l : opened id ((id, st) :: l) = Some st.
Proof. cbn [opened]. rewrite N.eqb_refl. reflexivity. Qed.
Lemma closed_head id (st : statement) l : Forall (fun p => fst p < id) l -> filter (fun p => negb (fst p =? id)) ((id, st) :: l) = l.
Proof.
  intros F. cbn [filter fst]. rewrite N.eqb_refl. cbn [negb]. induction F as [|p l H F IH]; [reflexivity|]. cbn [filter].
  destruct (N.eqb_spec (fst p) id); [lia|]. cbn [negb]. f_equal. exact IH.
Qed.

Section Calls.
Context {D : Type} (R : readers D) (cap : N) (admit : bool -> bytes -> sql_value -> option bytes) (checks : bool).
Definition after (s : server) (x : call) : server :=
  match x with
  | CSetUser n a => mk_srv (set_user n (arg_value a) (s_store s)) (s_open s) (s_next s + 1)
  | CSet g n a =>
      if known g n (st_vars (s_store s))
      then mk_srv (match admit g n (arg_value a) with
                   | Some t => mk_store (st_user (s_store s)) (assign g n t (st_vars (s_store s)))
                   | None => s_store s end) (s_open s) (s_next s + 1)
      else s
  | _ => s
  end.
Lemma after_sane s x : sane s -> sane (after s x) /\ s_next (after s x) <= s_next s + 1.
Proof.
  intros H. assert (K : Forall (fun p : N * statement => fst p < s_next s + 1) (s_open s)) by (eapply Forall_impl; [|exact H]; cbn; intros; lia).
  destruct x; cbn [after]; try (split; [exact H|lia]); try (split; [exact K|cbn; lia]).
  destruct (known _ _ _); split; try exact K; try exact H; cbn; lia.
Qed.

Lemma prepare_err_conv sql a m e : sendable checks sql -> err_message cap m e ->
  conversation cap (stmt <~ stmt_prepare checks sql ;; stmt_exec_close checks stmt [to_col a]) [asks cap (RqStmtPrepare sql)] [m] (Err e).
Proof. intros S E. apply conv_stop. apply prepare_err; assumption. Qed.
Lemma err_sql m e : err_message cap m e -> exists code mark state msg, e = ESql code mark state msg.
Proof. intros []. eauto. Qed.

(** the server's side of setting a variable *)
Lemma prepared_dialogue s sql st v ms s' : sane s -> statement_of sql = Some st ->
  match st with SSetUser _ => True | SSet g n => known g n (st_vars (s_store s)) = true | _ => False end ->
  dialogue cap admit s [HRequest (RqStmtPrepare sql); HExecute (mk_ex (s_next s) 0 1 [v]); HRequest (RqStmtClose (s_next s))] ms s' ->
  exists defs warnings ms1 m, length defs = 1%nat /\ Forall coldef_ok defs /\ warnings < 2 ^ 16 /\ defs_block cap defs ms1 /\
    ms = (prepare_ok_wire (s_next s) 0 1 warnings :: ms1) ++ [m] /\
    match st with
    | SSetUser n => ok_message cap 0 m /\ s' = mk_srv (set_user n v (s_store s)) (s_open s) (s_next s + 1)
    | SSet g n =>
        match admit g n v with
        | Some t => ok_message cap 0 m /\ s' = mk_srv (mk_store (st_user (s_store s)) (assign g n t (st_vars (s_store s)))) (s_open s) (s_next s + 1)
        | None => (exists e, err_message cap m e) /\ s' = mk_srv (s_store s) (s_open s) (s_next s + 1)
        end
    | _ => False
    end.
Proof.
  intros Sa E K H. inversion H as [|? ? m1 s1 ? m2 ? X Y]; subst. clear H.
  inversion X as [? st' defs w ms1 E' K' L F W B| ? g n m e E' K' Er| | | | | | | ]; subst; rewrite E in E'; injection E' as E'.
  - subst st'. inversion Y as [|? ? n1 s2 ? n2 ? X2 Y2]; subst. clear Y.
    inversion Y2 as [|? ? n3 s3 ? n4 ? X3 Y3]; subst. clear Y2. inversion Y3; subst. clear Y3.
    inversion X3; subst. clear X3.
    inversion X2 as [| |? n v' m O Ok| ? g n v' t m O A Ok| ? g n v' m e O A Er| | | | ]; subst; cbn [s_open] in O; rewrite opened_head in O; injection O as O; subst st.
    + exists defs, w, ms1, m. splits; auto. cbn [s_open s_next s_store fst]. rewrite closed_head by exact Sa. auto.
    + exists defs, w, ms1, m. splits; auto. rewrite A. cbn [s_open s_next s_store]. rewrite closed_head by exact Sa. auto.
    + exists defs, w, ms1, m. splits; auto. rewrite A. cbn [s_open s_next s_store]. rewrite closed_head by exact Sa. eauto.
  - subst st. congruence.
Qed.

Lemma call_step x s : sane s -> s_next s < 2 ^ 32 -> call_ok x -> forall ms s', dialogue cap admit s (says s x) ms s' ->
  s' = after s x /\ exists r, conversation cap (do_call checks R x) (map (understood cap) (says s x)) ms r /\
    expects R admit (s_store s) x r (s_store s') /\ settled r.
Proof.
  intros Sa Hn Ok ms s' H. destruct x as [n a|n q|g n a|g n q]; cbn [call_ok says after do_call] in *.
  - destruct Ok as (W & Sh & Oa & Sa'). 
    destruct (prepared_dialogue s _ _ _ _ _ Sa (read_set_user n W) I H) as (defs & w & ms1 & m & L & F & Hw & B & -> & O & ->).
    split; [reflexivity|]. exists (Ok ODone). split; [|split; [constructor|apply settled_ok]].
    assert (C : conversation cap (conn_set_user_var checks n (to_col a))
      [asks cap (RqStmtPrepare (sql_set_user n)); executes (s_next s) [arg_value a]; asks cap (RqStmtClose (s_next s))]
      ((prepare_ok_wire (s_next s) 0 (N.of_nat (length defs)) w :: ms1) ++ [m]) (Ok tt)).
    { apply set_user_var_spec; auto; [apply text_sendable; [exact Sh|cbn; lia|cbn; lia]|rewrite L; reflexivity|apply execute_sendable; exact Sa']. }
    rewrite L in C. exact (conv_then cap _ (fun _ => ODone) _ _ _ C).
  - destruct Ok as (W & Sh & P). inversion H as [|? ? m1 s1 ? m2 ? X Y]; subst. inversion Y; subst. clear H Y.
    pose proof (read_select n W) as E. fold (sql_select n) in E.
    inversion X as [| | | | | |? n' t ? E' V T|? n' d ? E' T|? g p ? E' T]; subst; rewrite E in E'; try discriminate; injection E' as <-.
    split; [reflexivity|]. rewrite app_nil_r.
    destruct T as (defs & hd & rowms & last & L & Od & Hh & Hr & Hl & ->).
    exists (rmap (fun v => OGot (Some v)) (as_text R q t)). split; [|split; [constructor; exact V|apply settled_map, as_text_settled; exact P]].
    assert (C : conversation cap (conn_get_user_var checks (as_text R q) n) [asks cap (RqQuery (sql_select n))] (hd ++ rowms ++ [last])
      (rmap Some (as_text R q t))).
    { apply (get_user_var_conv cap checks (as_text R q) n defs [[t]] hd rowms last); auto. rewrite <- (app_nil_r n). apply text_sendable; [exact Sh|cbn; lia|cbn; lia]. }
    pose proof (conv_then cap _ (fun v => OGot v) _ _ _ C) as C'. cbn [map understood].
    replace (rmap (fun v => OGot (Some v)) (as_text R q t)) with (rmap (fun v => OGot v) (rmap Some (as_text R q t))) by (destruct (as_text R q t); reflexivity).
    exact C'.
  - destruct Ok as (W & Sh & Oa & Sa'). destruct (known g n (st_vars (s_store s))) eqn:K.
    + destruct (prepared_dialogue s _ _ _ _ _ Sa (read_set g n W) K H) as (defs & w & ms1 & m & L & F & Hw & B & -> & O).
      assert (C : forall r, ok_message cap 0 m /\ r = Ok tt \/ (exists e, err_message cap m e /\ r = Err e) ->
        conversation cap (_ <~ conn_set_var checks n (to_col a) g ;; iret ODone)
          (map (understood cap) [HRequest (RqStmtPrepare (sql_set g n)); HExecute (mk_ex (s_next s) 0 1 [arg_value a]); HRequest (RqStmtClose (s_next s))])
          ((prepare_ok_wire (s_next s) 0 1 w :: ms1) ++ [m]) (rmap (fun _ => @ODone D) r)).
      { intros r Hr.
        assert (C : conversation cap (conn_set_var checks n (to_col a) g)
          [asks cap (RqStmtPrepare (sql_set g n)); executes (s_next s) [arg_value a]; asks cap (RqStmtClose (s_next s))]
          ((prepare_ok_wire (s_next s) 0 (N.of_nat (length defs)) w :: ms1) ++ [m]) r).
        { apply set_var_spec; auto; [apply text_sendable; [exact Sh|destruct g; cbn; lia|cbn; lia]|rewrite L; reflexivity|apply execute_sendable; exact Sa']. }
        rewrite L in C. exact (conv_then cap _ (fun _ => ODone) _ _ _ C). }
      destruct (admit g n (arg_value a)) as [t|] eqn:A.
      * destruct O as (O & ->). split; [reflexivity|]. exists (Ok ODone). split; [exact (C (Ok tt) (or_introl (conj O eq_refl)))|].
        split; [|apply settled_ok]. cbn [s_store]. econstructor; eauto.
      * destruct O as ((e & O) & ->). split; [reflexivity|]. exists (Err e). split; [exact (C (Err e) (or_intror (ex_intro _ e (conj O eq_refl))))|].
        destruct (err_sql _ _ O) as (c1 & c2 & c3 & c4 & ->). split; [cbn [s_store]; apply ex_refused; auto|right; eexists; split; [reflexivity|discriminate]].
    + inversion H as [|? ? m1 s1 ? m2 ? X Y]; subst. inversion Y; subst. clear H Y.
      pose proof (read_set g n W) as E. fold (sql_set g n) in E.
      inversion X as [? st' defs w ms1 E' K' L F W' B| ? g' n' m e E' K' Er| | | | | | | ]; subst; rewrite E in E'; injection E' as E'; [subst st'; congruence|].
      subst g' n'. split; [reflexivity|]. exists (Err e). destruct (err_sql _ _ Er) as (c1 & c2 & c3 & c4 & ->).
      split; [|split; [apply ex_refused; auto|right; eexists; split; [reflexivity|discriminate]]].
      cbn [app]. apply conv_stop. unfold conn_set_var.
      assert (Eq : set_var_sql n g = sql_set g n) by (destruct g; reflexivity). rewrite Eq.
      apply prepare_err_conv; [apply text_sendable; [exact Sh|destruct g; cbn; lia|cbn; lia]|exact Er].
  - destruct Ok as ((p & Q) & Sh & P). inversion H as [|? ? m1 s1 ? m2 ? X Y]; subst. inversion Y; subst. clear H Y.
    pose proof (read_show g n p Q) as E. fold (sql_show g n) in E.
    inversion X as [| | | | | |? n' t ? E' V T|? n' d ? E' T|? g' p' ? E' T]; subst; rewrite E in E'; try discriminate; injection E' as <- <-.
    split; [reflexivity|]. rewrite app_nil_r.
    destruct T as (defs & hd & rowms & last & L & Od & Hh & Hr & Hl & ->).
    set (rows := map (fun '(n, t) => [Some n; Some t]) (listed g p (st_vars (s_store s')))) in *.
    assert (C : conversation cap (conn_get_var checks (as_text R q) n g) [asks cap (RqQuery (sql_show g n))] (hd ++ rowms ++ [last])
      (match rows with [] => Ok None | row :: _ => rmap Some (as_text R q (nth 1 row None)) end)).
    { apply (get_var_spec _ cap checks (as_text R q) n g defs rows hd rowms last); auto.
      - apply text_sendable; [exact Sh|destruct g; cbn; lia|cbn; lia].
      - intros row rows' Er. subst rows. destruct (listed g p (st_vars (s_store s'))) as [|[x y] l]; [discriminate|]. cbn [map] in Er. injection Er as <- _. cbn. lia. }
    pose proof (conv_then cap _ (fun v => OGot v) _ _ _ C) as C'. cbn [map understood]. eexists. split; [exact C'|].
    assert (Eq : rmap (fun v => OGot v) (match rows with [] => Ok None | row :: _ => rmap Some (as_text R q (nth 1 row None)) end)
      = match listed g p (st_vars (s_store s')) with [] => Ok (OGot None) | (_, t) :: _ => rmap (fun v => OGot (Some v)) (as_text R q (Some t)) end).
    { subst rows. destruct (listed g p (st_vars (s_store s'))) as [|[x y] l]; [reflexivity|]. cbn [map nth]. destruct (as_text R q (Some y)); reflexivity. }
    rewrite Eq. split; [econstructor; exact Q|].
    destruct (listed g p (st_vars (s_store s'))) as [|[x y] l]; [apply settled_ok|apply settled_map, as_text_settled; exact P].
Qed.

Lemma run_history calls : forall s hs ms s', talk cap admit s calls hs ms s' -> sane s -> s_next s + N.of_nat (length calls) <= 2 ^ 32 -> Forall call_ok calls ->
  exists rs, conversation cap (run checks R calls) (map (understood cap) hs) ms (Ok rs) /\ follows R admit (s_store s) calls rs (s_store s') /\ sane s'.
Proof.
  induction calls as [|x calls IH]; intros s hs ms s' T Sa L F.
  - inversion T; subst. exists []. split; [apply conv_ret; reflexivity|]. split; [constructor|exact Sa].
  - apply Forall_cons_iff in F as [Ox F]. cbn [length] in L. destruct (after_sane s x Sa) as [Sa1 Ln].
    inversion T as [|? ? ms1 s1 ? hs2 ms2 ? H1 H2]; subst.
    destruct (call_step x s Sa ltac:(lia) Ox ms1 s1 H1) as (-> & r & C & X & St). destruct (IH _ _ _ _ H2 Sa1 ltac:(lia) F) as (rs & C2 & Fo & S2).
    exists (r :: rs). split; [|split; [econstructor; eauto|exact S2]].
    rewrite map_app. cbn [run]. eapply conv_bind; [apply conv_attempt; [exact C|exact St]|].
    exact (conv_then cap (run checks R calls) (fun l => r :: l) _ _ (Ok rs) C2).
Qed.
End Calls.

(** ** The server always has an answer *)
Definition any_col : column_def := mk_cd (str "def") [] [] [] (str "c") [] 63 20 TVarString 0 0 [].
Lemma any_cols k : Forall coldef_ok (repeat any_col k).
Proof. apply Forall_forall. intros x H. apply repeat_spec in H. subst. repeat constructor. Qed.
Lemma some_ok cap h : ok_message cap h (ok_wire cap h 0 0 2 0 [] []).
Proof. constructor; reflexivity. Qed.
Lemma some_last cap : exists m, last_message cap m.
Proof.
  unfold last_message. destruct (cap_deprecate_eof cap).
  - eexists. split; [apply some_ok|]. unfold ok_wire. repeat match goal with |- context [if ?b then _ else _] => destruct b end; reflexivity.
  - exists (eof_wire cap 0 2). apply eofm; reflexivity.
Qed.
Lemma some_end cap : exists e, defs_end cap e.
Proof. unfold defs_end. destruct (cap_deprecate_eof cap); [eauto|]. exists [eof_wire cap 0 2], (eof_wire cap 0 2). split; [apply eofm; reflexivity|reflexivity]. Qed.
Lemma some_err cap : cap_protocol_41 cap = true -> exists m e, err_message cap m e.
Proof. intros H. eexists. eexists. apply (errm cap 1 (str "HY000") []); auto; reflexivity. Qed.
Lemma some_text cap columns rows : (0 < columns <= 2)%nat ->
  Forall (fun row => length row = columns /\ Forall text_ok row) rows -> exists ms, text_answer cap columns rows ms.
Proof.
  intros C F. destruct (some_last cap) as (last & L). destruct (some_end cap) as (e & E).
  exists ((wlenenc (N.of_nat columns) :: map coldef_wire (repeat any_col columns) ++ e) ++ map text_row rows ++ [last]).
  exists (repeat any_col columns), (wlenenc (N.of_nat columns) :: map coldef_wire (repeat any_col columns) ++ e), (map text_row rows), last.
  splits; try assumption; try reflexivity.
  - apply repeat_length.
  - split; [destruct columns; [lia|discriminate]|]. rewrite repeat_length. split; [change (2 ^ 32) with 4294967296; lia|apply any_cols].
  - exists e. rewrite repeat_length. auto.
  - induction F as [|row rows [L1 T1] F IH]; constructor; [|exact IH]. rewrite repeat_length. auto.
Qed.
Lemma some_var_text v : value_ok v -> exists t, var_text v t /\ text_ok t.
Proof.
  destruct v; cbn [value_ok var_text]; intros H; try (exists None; now split; [|exact I]); [|exists (Some s); auto].
  assert (B : Z.abs_N z < 10 ^ N.of_nat 20) by (change (10 ^ N.of_nat 20) with 100000000000000000000; change (2 ^ 64)%Z with 18446744073709551616%Z in H; lia).
  eexists. split; [eexists; split; [reflexivity|exists 19%nat; split; [exact B|reflexivity]]|].
  cbn [text_ok]. rewrite app_length, digits_length. change (2 ^ 64) with 18446744073709551616. destruct (z <? 0)%Z; cbn [length]; lia.
Qed.
Lemma user_value_ok n l : Forall (fun p => value_ok (snd p)) l -> value_ok (user_value n l).
Proof. induction 1 as [|[m v] l H F IH]; [exact I|]. cbn [user_value]. destruct (same_name m n); assumption. Qed.
Lemma arg_value_ok a : arg_ok a -> short_arg a -> value_ok (arg_value a).
Proof.
  destruct a; cbn [arg_ok arg_value value_ok short_arg]; intros O S; try exact I; unfold in_int, short in *;
    repeat match goal with
    | |- context [(2 ^ ?k)%Z] => let v := eval vm_compute in (2 ^ k)%Z in change (2 ^ k)%Z with v
    | H : context [(2 ^ ?k)%Z] |- _ => let v := eval vm_compute in (2 ^ k)%Z in change (2 ^ k)%Z with v in H
    | |- context [2 ^ ?k] => let v := eval vm_compute in (2 ^ k) in change (2 ^ k) with v
    | H : context [2 ^ ?k] |- _ => let v := eval vm_compute in (2 ^ k) in change (2 ^ k) with v in H
    end; try lia.
  - destruct b; lia.
Qed.
Section Answers.
Variables (cap : N) (admit : bool -> bytes -> sql_value -> option bytes).
Lemma some_prepare s sql st : statement_of sql = Some st ->
  match st with SSetUser _ => True | SSet g n => known g n (st_vars (s_store s)) = true | _ => False end ->
  exists ms, reacts cap admit s (HRequest (RqStmtPrepare sql)) ms (mk_srv (s_store s) ((s_next s, st) :: s_open s) (s_next s + 1)).
Proof.
  intros E K. destruct (some_end cap) as (e & D). eexists. apply rx_prepare with (defs := [any_col]) (warnings := 0) (ms := map coldef_wire [any_col] ++ e); auto;
    try reflexivity; [apply (any_cols 1)|]. exists e. auto.
Qed.
Lemma dialogue_three s h1 m1 s1 h2 m2 s2 h3 m3 s3 : reacts cap admit s h1 m1 s1 -> reacts cap admit s1 h2 m2 s2 -> reacts cap admit s2 h3 m3 s3 ->
  dialogue cap admit s [h1; h2; h3] (m1 ++ m2 ++ m3 ++ []) s3.
Proof. intros. econstructor; [eassumption|]. econstructor; [eassumption|]. econstructor; [eassumption|]. constructor. Qed.
Lemma answered x s : cap_protocol_41 cap = true -> store_ok (s_store s) -> call_ok x -> exists ms s', dialogue cap admit s (says s x) ms s'.
Proof.
  intros P [U V] Ok. destruct x as [n a|n q|g n a|g n q]; cbn [call_ok says] in *.
  - destruct Ok as (W & _). destruct (some_prepare s _ _ (read_set_user n W) I) as (ms & H).
    eexists. eexists. eapply dialogue_three; [exact H| |constructor].
    apply rx_set_user; [apply opened_head|apply some_ok].
  - destruct Ok as (W & _). destruct (some_var_text _ (user_value_ok n _ U)) as (t & T & Lt).
    destruct (some_text cap 1 [[t]] ltac:(lia)) as (ms & A); [repeat constructor; exact Lt|].
    eexists. eexists. econstructor; [|constructor]. eapply rx_select; [apply read_select; exact W|exact T|exact A].
  - destruct Ok as (W & _). destruct (known g n (st_vars (s_store s))) eqn:K.
    + destruct (some_prepare s _ _ (read_set g n W) K) as (ms & H). destruct (admit g n (arg_value a)) as [t|] eqn:A.
      * eexists. eexists. eapply dialogue_three; [exact H| |constructor]. eapply rx_set; [apply opened_head|exact A|apply some_ok].
      * destruct (some_err cap P) as (m & e & E). eexists. eexists. eapply dialogue_three; [exact H| |constructor].
        eapply rx_refuse; [apply opened_head|exact A|exact E].
    + destruct (some_err cap P) as (m & e & E). eexists. eexists. econstructor; [|constructor]. eapply rx_unknown; [apply read_set; exact W|exact K|exact E].
  - destruct Ok as ((p & Q) & _).
    destruct (some_text cap 2 (map (fun '(n, t) => [Some n; Some t]) (listed g p (st_vars (s_store s)))) ltac:(lia)) as (ms & A).
    { apply Forall_forall. intros row Hr. apply in_map_iff in Hr as ([m t] & <- & Hr). split; [reflexivity|].
      apply in_flat_map in Hr as (v & Hv & Hr). apply Forall_forall with (x := v) in V; [|exact Hv]. destruct V as (V1 & V2 & V3).
      assert (T : text_ok (shows g v)) by (unfold shows; destruct g; [exact V2|]; destruct (v_session v); assumption).
      destruct (shows g v) as [t'|]; [|contradiction]. destruct (like p (v_name v)); [|contradiction].
      destruct Hr as [Hr|[]]. injection Hr as <- <-. repeat constructor; assumption. }
    eexists. eexists. econstructor; [|constructor]. eapply rx_show; [apply read_show; exact Q|exact A].
Qed.
Lemma after_store_ok x s : (forall g n v t, admit g n v = Some t -> N.of_nat (length t) < 2 ^ 64) ->
  store_ok (s_store s) -> call_ok x -> store_ok (s_store (after admit s x)).
Proof.
  intros A [U V] Ok. destruct x as [n a|n q|g n a|g n q]; cbn [after s_store]; try (split; assumption).
  - destruct Ok as (_ & _ & O1 & O2). split; [|exact V]. constructor; [apply arg_value_ok; assumption|exact U].
  - destruct (known _ _ _); [|split; assumption]. cbn [s_store]. destruct (admit _ _ _) as [t|] eqn:E; [|split; assumption].
    split; [exact U|]. apply A in E. cbn [st_vars]. unfold assign. apply Forall_map. eapply Forall_impl; [|exact V].
    intros v (V1 & V2 & V3). cbn beta. destruct (same_name _ _); [|split; [exact V1|split; assumption]].
    unfold value_in. destruct g; [destruct (v_global v) eqn:Ev|destruct (v_session v) eqn:Ev]; (split; [exact V1|split; cbn [v_global v_session]; rewrite ?Ev in *; assumption]).
Qed.
Lemma talk_goes_on calls : cap_protocol_41 cap = true -> (forall g n v t, admit g n v = Some t -> N.of_nat (length t) < 2 ^ 64) ->
  forall s, sane s -> s_next s + N.of_nat (length calls) <= 2 ^ 32 -> store_ok (s_store s) -> Forall call_ok calls ->
  exists hs ms s', talk cap admit s calls hs ms s'.
Proof.
  intros P A. induction calls as [|x calls IH]; intros s Sa L So F; [exists [], [], s; constructor|].
  apply Forall_cons_iff in F as [Ox F]. cbn [length] in L. destruct (after_sane admit true s x Sa) as [Sa1 Ln].
  destruct (answered x s P So Ox) as (ms & s1 & H).
  destruct (call_step (simple_readers) cap admit true x s Sa ltac:(lia) Ox ms s1 H) as (-> & _).
  destruct (IH _ Sa1 ltac:(lia) (after_store_ok x s A So Ox) F) as (hs & ms2 & s2 & T). do 3 eexists. econstructor; eassumption.
Qed.
End Answers.

(** ** Histories *)
Lemma follows_app D (R : readers D) admit xs : forall ys st rs st', follows R admit st (xs ++ ys) rs st' ->
  exists rs1 st1 rs2, follows R admit st xs rs1 st1 /\ follows R admit st1 ys rs2 st' /\ rs = rs1 ++ rs2.
Proof.
  induction xs as [|x xs IH]; intros ys st rs st' H; cbn [app] in H; [exists [], st, rs; split; [constructor|auto]|].
  inversion H as [|? ? r st1 ? rs' ? X Y]; subst. destruct (IH _ _ _ _ Y) as (rs1 & st2 & rs2 & A & B & ->).
  exists (r :: rs1), st2, rs2. split; [econstructor; eauto|auto].
Qed.
Lemma same_name_eq a b : same_name a b = true <-> map lower a = map lower b.
Proof. unfold same_name. destruct (beqb_spec (map lower a) (map lower b)); split; congruence. Qed.
Lemma same_name_cong a b c : same_name a b = true -> same_name c a = same_name c b.
Proof. intros H. apply same_name_eq in H. unfold same_name. rewrite H. reflexivity. Qed.
Lemma same_name_sym a b : same_name a b = same_name b a.
Proof. unfold same_name. destruct (beqb_spec (map lower a) (map lower b)), (beqb_spec (map lower b) (map lower a)); congruence. Qed.
Lemma user_kept D (R : readers D) admit n calls : forall st rs st', follows R admit st calls rs st' -> Forall (leaves_user n) calls ->
  user_value n (st_user st') = user_value n (st_user st).
Proof.
  induction calls as [|x calls IH]; intros st rs st' H F; inversion H as [|? ? r st1 ? rs' ? X Y]; subst; [reflexivity|].
  apply Forall_cons_iff in F as [Fx F]. rewrite (IH _ _ _ Y F). inversion X; subst; try reflexivity.
  cbn [leaves_user] in Fx. cbn [set_user st_user user_value]. rewrite Fx. reflexivity.
Qed.
Lemma bool_text D (R : readers D) z s : number_shown z s -> (0 <= z < 256)%Z -> as_text R QBool (Some s) = Ok (Some (GBool (z =? 1)%Z)).
Proof.
  intros S B. destruct (int_text_unsigned D R QU8 8 z s eq_refl S) as [H _]. specialize (H B). revert H.
  cbn [as_text]. unfold u8_from_text, text_parsed, bool_from_text. destruct (from_utf8 s) as [x|e|g|]; cbn [rbind]; try discriminate.
  destruct (parse_u 8 x) as [k|e|g|]; try discriminate. unfold some_as. cbn [rmap rbind option_map]. intros [= <-].
  do 3 f_equal. destruct (N.eqb_spec k 1), (Z.eqb_spec (Z.of_N k) 1); lia || reflexivity.
Qed.
Lemma recalled D (R : readers D) a q v t : recalls a q v -> var_text (arg_value a) t -> as_text R q t = Ok v.
Proof.
  unfold recalls. intros Rc T. destruct (arg_value a); try contradiction; cbn [var_text] in T.
  - subst. apply null_text.
  - destruct T as (s & -> & S). destruct Rc as [(bits & [|] & A & B & ->)|(-> & B & ->)].
    + apply (int_text_unsigned D R q bits z s A S). exact B.
    + apply (int_text_signed D R q bits z s A S). exact B.
    + apply bool_text; assumption.
  - subst t. destruct Rc as [[->|[-> U]] ->]; [reflexivity|]. cbn [as_text]. unfold string_from_text. rewrite from_utf8_cases, U. reflexivity.
Qed.
Lemma user_recalled D (R : readers D) admit st n a between n' q v rs st' :
  follows R admit st (CSetUser n a :: between ++ [CGetUser n' q]) rs st' -> same_name n n' = true -> Forall (leaves_user n) between -> recalls a q v ->
  exists rs1, rs = rs1 ++ [Ok (OGot (Some v))].
Proof.
  intros H E F Rc. inversion H as [|? ? r st1 ? rs' ? X Y]; subst. inversion X; subst. clear X H.
  destruct (follows_app _ _ _ _ _ _ _ _ Y) as (rs1 & st2 & rs2 & A & B & ->). inversion B as [|? ? r2 st3 ? rs3 ? X2 Y2]; subst.
  inversion Y2; subst. inversion X2 as [|? ? t T| | | ]; subst. exists (Ok ODone :: rs1). cbn [app]. do 2 f_equal.
  assert (U : user_value n' (st_user st') = arg_value a).
  { assert (Eu : forall l, user_value n' l = user_value n l).
    { induction l as [|[m w] l IH]; [reflexivity|]. cbn [user_value]. rewrite IH, (same_name_cong n n' m E). reflexivity. }
    rewrite Eu, (user_kept _ _ _ n _ _ _ _ A F). cbn [set_user st_user user_value].
    assert (S : same_name n n = true) by (apply same_name_eq; reflexivity). rewrite S. reflexivity. }
  rewrite U in T. rewrite (recalled D R a q v t Rc T). reflexivity.
Qed.

(** system variables *)
Lemma word_chars n : word n -> Forall (fun c => is_dig c || is_let c = true) n.
Proof. destruct n as [|b n]; [contradiction|]. intros [_ H]. apply Forall_forall. intros c Hc. rewrite forallb_forall in H. exact (H c Hc). Qed.
Lemma like_same n : Forall (fun c => is_dig c || is_let c = true) n -> forall m, same_name m n = true -> like n m = true.
Proof.
  induction 1 as [|c n Hc F IH]; intros [|b m] E; apply same_name_eq in E; try discriminate; [reflexivity|].
  cbn [map] in E. injection E as E1 E2. cbn [like].
  assert (C1 : Byte.eqb c (n2b 37) = false) by (apply byte_eqb_neq; intros ->; discriminate).
  assert (C2 : Byte.eqb c backslash = false) by (apply byte_eqb_neq; intros ->; discriminate).
  rewrite C1, C2. rewrite (IH m (proj2 (same_name_eq m n) E2)). destruct (Byte.eqb c (n2b 95)); [reflexivity|].
  rewrite E1, byte_eqb_refl. reflexivity.
Qed.
Lemma quoted_word n : Forall (fun c => is_dig c || is_let c = true) n -> quoted_as n n.
Proof.
  unfold quoted_as. induction 1 as [|c n Hc F IH]; [reflexivity|]. cbn [app scan_text].
  assert (C1 : Byte.eqb c quote = false) by (apply byte_eqb_neq; intros ->; discriminate).
  assert (C2 : Byte.eqb c backslash = false) by (apply byte_eqb_neq; intros ->; discriminate).
  rewrite C1, C2. cbn [andb]. rewrite IH. reflexivity.
Qed.
(** exactly one variable matches the name; it is the one named and has this value *)
Definition holds (g : bool) (n n' t : bytes) (vars : list sysvar) : Prop :=
  exists u v w, vars = u ++ v :: w /\ (forall x, In x (u ++ w) -> like n' (v_name x) = false) /\ same_name (v_name v) n = true /\ value_in g v = Some t.
Definition assign1 (g : bool) (n t : bytes) (v : sysvar) : sysvar :=
  if same_name (v_name v) n
  then match g, value_in g v with
       | true, Some _ => mk_var (v_name v) (Some t) (v_session v)
       | false, Some _ => mk_var (v_name v) (v_global v) (Some t)
       | _, None => v
       end
  else v.
Lemma assign1_name g n t v : v_name (assign1 g n t v) = v_name v.
Proof. unfold assign1. destruct (same_name _ _); [|reflexivity]. destruct g, (value_in _ v); reflexivity. Qed.
Lemma assign_split g n t u v w : assign g n t (u ++ v :: w) = map (assign1 g n t) u ++ assign1 g n t v :: map (assign1 g n t) w.
Proof. unfold assign. rewrite map_app. reflexivity. Qed.
Lemma others_names g n t u w p : (forall x, In x (u ++ w) -> like p (v_name x) = false) ->
  forall x, In x (map (assign1 g n t) u ++ map (assign1 g n t) w) -> like p (v_name x) = false.
Proof. intros H x Hx. rewrite <- map_app in Hx. apply in_map_iff in Hx as (y & <- & Hy). rewrite assign1_name. apply H; exact Hy. Qed.
Lemma held_single g n n' t vars : word n' -> same_name n n' = true -> holds g n n' t vars ->
  exists m, listed g n' vars = [(m, t)].
Proof.
  intros W E (u & v & w & -> & O & S & V).
  assert (Z : forall l, (forall x, In x l -> like n' (v_name x) = false) ->
    flat_map (fun v => match shows g v with Some t => if like n' (v_name v) then [(v_name v, t)] else [] | None => [] end) l = []).
  { induction l as [|x l IH]; intros H; [reflexivity|]. cbn [flat_map]. rewrite (H x (or_introl eq_refl)), IH by (intros; apply H; right; assumption).
    destruct (shows g x); reflexivity. }
  unfold listed. rewrite flat_map_app. cbn [flat_map]. rewrite (Z u), (Z w) by (intros x Hx; apply O, in_app_iff; auto).
  assert (Sh : shows g v = Some t) by (unfold shows, value_in in *; destruct g; [exact V|]; rewrite V; reflexivity).
  rewrite Sh. rewrite (like_same n' (word_chars n' W)) by (rewrite <- (same_name_cong n n' _ E); exact S). exists (v_name v). reflexivity.
Qed.
Lemma holds_set g n n' t vars : word n' -> same_name n n' = true -> unambiguous n' vars -> known g n vars = true -> holds g n n' t (assign g n t vars).
Proof.
  intros W E (u & v & w & -> & O) K. unfold known in K. apply existsb_exists in K as (x & Hx & K). apply andb_true_iff in K as [K1 K2].
  assert (x = v).
  { apply in_app_iff in Hx. cbn [In] in Hx. destruct Hx as [Hx|[Hx|Hx]]; [|auto|]; exfalso;
      pose proof (O x ltac:(apply in_app_iff; auto)) as N; rewrite (like_same n' (word_chars n' W)) in N by (rewrite <- (same_name_cong n n' _ E); exact K1); discriminate. }
  subst x. rewrite assign_split. exists (map (assign1 g n t) u), (assign1 g n t v), (map (assign1 g n t) w).
  split; [reflexivity|]. split; [apply others_names; exact O|]. rewrite assign1_name. split; [exact K1|].
  unfold assign1. rewrite K1. destruct g; (destruct (value_in _ v) eqn:V; [|discriminate]); reflexivity.
Qed.
Lemma holds_kept D (R : readers D) admit g n n' t calls : forall st rs st', follows R admit st calls rs st' -> Forall (leaves_var g n) calls ->
  holds g n n' t (st_vars st) -> holds g n n' t (st_vars st').
Proof.
  induction calls as [|x calls IH]; intros st rs st' H F Ho; inversion H as [|? ? r st1 ? rs' ? X Y]; subst; [exact Ho|].
  apply Forall_cons_iff in F as [Fx F]. apply (IH _ _ _ Y F). inversion X as [| |g' m a t' K A| | ]; subst; try exact Ho.
  cbn [st_vars leaves_var] in *. destruct Ho as (u & v & w & -> & O & S & V). rewrite assign_split.
  exists (map (assign1 g' m t') u), (assign1 g' m t' v), (map (assign1 g' m t') w). split; [reflexivity|].
  split; [apply others_names; exact O|]. rewrite assign1_name. split; [exact S|]. unfold assign1.
  destruct (same_name (v_name v) m) eqn:Em; [|exact V].
  destruct Fx as [Ng|Nm].
  - destruct g, g'; try congruence; [destruct (value_in false v)|destruct (value_in true v)]; exact V.
  - exfalso. rewrite (same_name_sym (v_name v) m) in Em. rewrite <- (same_name_cong _ _ m S), Em in Nm. discriminate.
Qed.
Lemma names_kept D (R : readers D) admit p calls : forall st rs st', follows R admit st calls rs st' ->
  unambiguous p (st_vars st) -> unambiguous p (st_vars st').
Proof.
  induction calls as [|x calls IH]; intros st rs st' H U; inversion H as [|? ? r st1 ? rs' ? X Y]; subst; [exact U|].
  apply (IH _ _ _ Y). inversion X as [| |g' m a t' K A| | ]; subst; try exact U.
  destruct U as (u & v & w & E & O). cbn [st_vars]. rewrite E, assign_split. do 3 eexists. split; [reflexivity|]. apply others_names. exact O.
Qed.
Lemma var_recalled D (R : readers D) admit st g n a between n' q rs1 rs st' :
  follows R admit st (CSet g n a :: between ++ [CGet g n' q]) (Ok ODone :: rs1 ++ [rs]) st' -> word n' -> same_name n n' = true -> unambiguous n' (st_vars st) ->
  Forall (leaves_var g n) between ->
  exists t, admit g n (arg_value a) = Some t /\ rs = rmap (fun v => OGot (Some v)) (as_text R q (Some t)).
Proof.
  intros H W E U F. inversion H as [|? ? r st1 ? rs' ? X Y]; subst. inversion X as [| |? ? ? t K A| | ]; subst. exists t. split; [exact A|].
  destruct (follows_app _ _ _ _ _ _ _ _ Y) as (rs2 & st2 & rs3 & B & C & Eq). inversion C as [|? ? r2 st3 ? rs4 ? X2 Y2]; subst. inversion Y2; subst.
  apply app_inj_tail in Eq as [_ ->].
  pose proof (holds_kept _ _ _ g n n' t _ _ _ _ B F (holds_set g n n' t _ W E U K)) as Ho.
  destruct (held_single g n n' t _ W E Ho) as (m & L).
  inversion X2 as [| | | |? ? p ? Q]; subst. unfold quoted_as in Q. pose proof (quoted_word n' (word_chars n' W)) as Q'. unfold quoted_as in Q'.
  assert (p = n') by congruence. subst p. rewrite L. reflexivity.
Qed.
