(** * C65: what is set under a variable's name is what is read back *)
From Coq Require Import Strings.String.
From Coq Require Import List NArith ZArith Lia Arith Bool.
From Verif Require Import Model.Base Model.Conn Model.Auth Model.Cmd Model.Col Model.Stmt Model.Extract Model.Session
  Spec.Wire Spec.Packets Spec.Framing Spec.Session Spec.Commands Spec.Values Spec.Execute Spec.ResultSets Spec.SqlSpec Spec.BothWays Spec.Programs Spec.Variables
  Proofs.BaseLemmas Proofs.SqlProofs Proofs.CommandProofs Proofs.ScriptProofs Proofs.BothWaysProofs Proofs.VariablesProofs.
Import ListNotations.
Open Scope N_scope.

(** Any history of calls setting and reading user variables and system variables, session and global, against a
    server that keeps variables as the manual says: every call gets the answer the server's variables demand,
    and the variables end up as the calls demand, no more and no less.  The server is told exactly [hs]. *)
Theorem C65_calls : forall D (R : readers D) cap admit checks calls s hs ms s',
  sane s -> s_next s + N.of_nat (length calls) <= 2 ^ 32 -> Forall call_ok calls -> talk cap admit s calls hs ms s' ->
  exists rs, conversation cap (run checks R calls) (map (understood cap) hs) ms (Ok rs) /\
    follows R admit (s_store s) calls rs (s_store s') /\ sane s'.
Proof. intros D R cap admit checks calls s hs ms s' Sa L F T. exact (run_history R cap admit checks calls s hs ms s' T Sa L F). Qed.
Print Assumptions C65_calls.
(** Such a server can answer all of them: no call sends it a statement it cannot read. *)
Theorem C65_answered : forall cap admit calls s, cap_protocol_41 cap = true ->
  (forall g n v t, admit g n v = Some t -> N.of_nat (length t) < 2 ^ 64) ->
  sane s -> s_next s + N.of_nat (length calls) <= 2 ^ 32 -> store_ok (s_store s) -> Forall call_ok calls ->
  exists hs ms s', talk cap admit s calls hs ms s'.
Proof. intros cap admit calls s P A Sa L So F. apply talk_goes_on; assumption. Qed.
Print Assumptions C65_answered.
(** A user variable: after it is set, and whatever is called in between that does not set it again, it reads as
    the value it was set to, under any spelling of its name.  NULL reads as no value. *)
Theorem C65_user_variable : forall D (R : readers D) cap admit checks before n a between n' q v s hs ms s',
  let calls := before ++ CSetUser n a :: between ++ [CGetUser n' q] in
  sane s -> s_next s + N.of_nat (length calls) <= 2 ^ 32 -> Forall call_ok calls -> talk cap admit s calls hs ms s' ->
  same_name n n' = true -> Forall (leaves_user n) between -> recalls a q v ->
  exists rs, conversation cap (run checks R calls) (map (understood cap) hs) ms (Ok (rs ++ [Ok (OGot (Some v))])).
Proof.
  intros D R cap admit checks before n a between n' q v s hs ms s' calls Sa L F T E Fb Rc.
  destruct (run_history R cap admit checks calls s hs ms s' T Sa L F) as (rs & C & Fo & _).
  destruct (follows_app _ _ _ _ _ _ _ _ Fo) as (rs1 & st1 & rs2 & _ & B & ->).
  destruct (user_recalled D R admit st1 n a between n' q v rs2 _ B E Fb Rc) as (rs3 & ->).
  exists (rs1 ++ rs3). rewrite <- app_assoc. exact C.
Qed.
Print Assumptions C65_user_variable.
(** A system variable: if setting it succeeds, it reads in that scope as the text the server took, also after
    the variable of the other scope or other variables are set.  This needs that its name, read as a pattern,
    matches no other name. *)
Theorem C65_system_variable : forall D (R : readers D) cap admit checks before g n a between n' q s hs ms s',
  let calls := before ++ CSet g n a :: between ++ [CGet g n' q] in
  sane s -> s_next s + N.of_nat (length calls) <= 2 ^ 32 -> Forall call_ok calls -> talk cap admit s calls hs ms s' ->
  word n' -> same_name n n' = true -> unambiguous n' (st_vars (s_store s)) -> Forall (leaves_var g n) between ->
  exists rs1 r rs2 last, conversation cap (run checks R calls) (map (understood cap) hs) ms (Ok (rs1 ++ r :: rs2 ++ [last])) /\
    length rs1 = length before /\
    (r = Ok ODone -> exists t, admit g n (arg_value a) = Some t /\ last = rmap (fun v => OGot (Some v)) (as_text R q (Some t))).
Proof.
  intros D R cap admit checks before g n a between n' q s hs ms s' calls Sa L F T W E U Fb.
  destruct (run_history R cap admit checks calls s hs ms s' T Sa L F) as (rs & C & Fo & _).
  destruct (follows_app _ _ _ _ _ _ _ _ Fo) as (rs1 & st1 & rs2 & A & B & ->).
  assert (Lr : length rs1 = length before) by (clear - A; induction A; cbn [length]; congruence).
  inversion B as [|? ? r st2 ? rs3 ? X Y]; subst. destruct (follows_app _ _ _ _ _ _ _ _ Y) as (rs4 & st3 & rs5 & _ & Z & ->).
  inversion Z as [|? ? last st4 ? rs6 ? X2 Y2]; subst. inversion Y2; subst.
  exists rs1, r, rs4, last. split; [exact C|]. split; [exact Lr|]. intros ->.
  exact (var_recalled D R admit st1 g n a between n' q rs4 last _ B W E (names_kept _ _ _ n' _ _ _ _ A U) Fb).
Qed.
Print Assumptions C65_system_variable.

(** Finding: the name of a system variable to read is sent as a pattern.  With [_] in it, the answer is about any
    variable whose name has another character there, if the server lists it first. *)
Lemma like_one u c w : Forall (fun b => is_dig b || is_let b = true) (u ++ w) -> like (u ++ n2b 95 :: w) (u ++ c :: w) = true.
Proof.
  intros F. apply Forall_app in F as [Fu Fw]. induction Fu as [|b u Hb Fu IH].
  - cbn [app like]. change (Byte.eqb (n2b 95) (n2b 37)) with false. change (Byte.eqb (n2b 95) (n2b 95)) with true. cbv iota.
    apply like_same; [exact Fw|]. apply same_name_eq. reflexivity.
  - cbn [app like].
    assert (C1 : Byte.eqb b (n2b 37) = false) by (apply byte_eqb_neq; intros ->; discriminate).
    assert (C2 : Byte.eqb b backslash = false) by (apply byte_eqb_neq; intros ->; discriminate).
    rewrite C1, C2, IH. destruct (Byte.eqb b (n2b 95)); [reflexivity|]. rewrite byte_eqb_refl. reflexivity.
Qed.
Theorem C65_pattern_refuted : forall D (R : readers D) cap admit checks g u c w q other t vars s hs ms s',
  sane s -> s_next s < 2 ^ 32 -> word (u ++ n2b 95 :: w) -> short (u ++ n2b 95 :: w) -> plain_ask q ->
  st_vars (s_store s) = other :: vars -> v_name other = u ++ c :: w -> shows g other = Some t ->
  talk cap admit s [CGet g (u ++ n2b 95 :: w) q] hs ms s' ->
  conversation cap (run checks R [CGet g (u ++ n2b 95 :: w) q]) (map (understood cap) hs) ms
    (Ok [rmap (fun v => OGot (Some v)) (as_text R q (Some t))]).
Proof.
  intros D R cap admit checks g u c w q other t vars s hs ms s' Sa L W Sh P V N T H.
  pose proof (word_chars _ W) as Wc. pose proof (quoted_word _ Wc) as Q.
  destruct (run_history R cap admit checks _ s hs ms s' H Sa ltac:(cbn; lia) ltac:(constructor; [split; [eexists; exact Q|auto]|constructor])) as (rs & C & Fo & _).
  inversion Fo as [|? ? r st1 ? rs1 ? X Y]; subst. inversion Y; subst. inversion X as [| | | |? ? p ? Qp]; subst.
  unfold quoted_as in Q, Qp. assert (p = u ++ n2b 95 :: w) by congruence. subst p.
  rewrite V in C. unfold listed in C. cbn [flat_map] in C. rewrite T, N in C.
  rewrite like_one in C by (apply Forall_app in Wc as [A B]; apply Forall_cons_iff in B as [_ B]; apply Forall_app; auto). exact C.
Qed.
Print Assumptions C65_pattern_refuted.
(** Finding: the name of a user variable to read is sent as SQL.  Reading "n := 7" sets [n] to 7 and reports 7. *)
Theorem C65_assign_refuted : forall D (R : readers D) cap admit checks n d s ms s',
  word n -> d <> [] -> forallb is_dig d = true -> short (n ++ str " := " ++ d) ->
  dialogue cap admit s [HRequest (RqQuery (sql_select (n ++ str " := " ++ d)))] ms s' ->
  conversation cap (conn_get_user_var checks (as_text R QBytes) (n ++ str " := " ++ d))
    [asks cap (RqQuery (sql_select (n ++ str " := " ++ d)))] ms (Ok (Some (Some (GBytes d)))) /\
  user_value n (st_user (s_store s')) = VInt (Z.of_N (decimal_value d 0)).
Proof.
  intros D R cap admit checks n d s ms s' W Hd Hf Sd H. pose proof (read_assign n d W Hd Hf) as E.
  change (str "SELECT @" ++ n ++ str " := " ++ d) with (sql_select (n ++ str " := " ++ d)) in E.
  remember (sql_select (n ++ str " := " ++ d)) as sql eqn:Es.
  assert (A : forall st, dialogue cap admit st [HRequest (RqQuery sql)] ms s' -> text_answer cap 1 [[Some d]] ms /\ s_store s' = set_user n (VInt (Z.of_N (decimal_value d 0))) (s_store st)).
  { clear - E. intros st H. inversion H as [|? ? m1 s1 ? m2 ? X Y]; subst. inversion Y; subst. rewrite app_nil_r.
    inversion X as [| | | | | |? n' t ? E' V T|? n' d' ? E' T|? g p ? E' T]; subst; rewrite E in E'; try discriminate; injection E' as <- <-. auto. }
  destruct (A s H) as (T & ->). subst sql.
  destruct T as (defs & hd & rowms & last & L & Od & Hh & Hr & Hl & ->). split.
  - change (Ok (Some (Some (@GBytes D d)))) with (rmap Some (as_text R QBytes (Some d))).
    apply (get_user_var_conv cap checks (as_text R QBytes) (n ++ str " := " ++ d) defs [[Some d]] hd rowms last); auto.
    right. unfold short in *. change (2 ^ 30) with 1073741824 in *. change (2 ^ 31) with 2147483648.
    rewrite app_length. change (length (str "SELECT @")) with 8%nat. lia.
  - cbn [set_user st_user user_value]. assert (S : same_name n n = true) by (apply same_name_eq; reflexivity). rewrite S. reflexivity.
Qed.
Print Assumptions C65_assign_refuted.

(** *** Examples *)
(** a server with three system variables; it takes numbers and texts *)
Definition ex_vars : list sysvar :=
  [mk_var (str "validate_password.length") (Some (str "12")) None;
   mk_var (str "validate_password_length") (Some (str "8")) None;
   mk_var (str "wait_timeout") (Some (str "28800")) (Some (str "28800"))].
Definition ex_server : server := mk_srv (mk_store [(str "Kept", VBytes (str "x"))] ex_vars) [(3, SSetUser (str "other"))] 4.
Definition ex_admit (g : bool) (n : bytes) (v : sql_value) : option bytes :=
  match v with VInt 60 => Some (str "60") | VInt 90 => Some (str "90") | _ => None end.
Definition ex_calls : list call :=
  [CSetUser (str "a") (AI32 (-5)); CSet false (str "wait_timeout") (AU16 60); CSet true (str "wait_timeout") (AU16 90);
   CSet true (str "wait_timeout") (AString (str "x")); CSet true (str "nothing") (AU16 60);
   CSetUser (str "b") (AString (str "text")); CGetUser (str "KEPT") QString; CGet true (str "Wait_Timeout") QU32;
   CGet false (str "wait_timeout") QU32; CGetUser (str "A") QI32].
Lemma ex_calls_ok : Forall call_ok ex_calls.
Proof.
  assert (W : forall s, (match str s with b :: _ => is_let b && forallb (fun c => is_dig c || is_let c) (str s) | [] => false end) = true -> word (str s))
    by (intros s; unfold word; destruct (str s); [discriminate|]; intros H; apply andb_true_iff in H; exact H).
  repeat (apply Forall_cons; [cbn [call_ok]; repeat match goal with |- _ /\ _ => split end;
    first [apply W; vm_compute; reflexivity | reflexivity | left; discriminate | right; cbn; tauto | eexists; vm_compute; reflexivity
          | cbn; unfold in_int; lia | vm_compute; reflexivity | cbn; unfold str_ok; cbn; lia | exact I | idtac]|]).
  apply Forall_nil.
Qed.
(** the hypotheses of the theorems are met by it *)
Example C65_example_hypotheses : sane ex_server /\ s_next ex_server + N.of_nat (length ex_calls) <= 2 ^ 32 /\ Forall call_ok ex_calls /\ store_ok (s_store ex_server) /\
  (exists hs ms s', talk (client_caps []) ex_admit ex_server ex_calls hs ms s') /\
  recalls (D := bytes) (AI32 (-5)) QI32 (Some (GInt (-5))) /\ unambiguous (str "wait_timeout") ex_vars /\
  ~ unambiguous (str "validate_password_length") ex_vars.
Proof.
  assert (Sa : sane ex_server) by (repeat constructor).
  assert (So : store_ok (s_store ex_server)) by (split; [repeat constructor|repeat (constructor; [split; [reflexivity|split; reflexivity || exact I]|]); constructor]).
  split; [exact Sa|]. split; [discriminate|]. split; [exact ex_calls_ok|]. split; [exact So|]. split.
  { apply C65_answered; [reflexivity| |exact Sa|discriminate|exact So|exact ex_calls_ok].
    intros g n v t. unfold ex_admit. destruct v as [|z| | | | |]; try discriminate. destruct z as [|p|p]; try discriminate.
    repeat (destruct p; try discriminate); intros [= <-]; reflexivity. }
  split; [left; exists 32, false; split; [reflexivity|split; [split; vm_compute; congruence|reflexivity]]|]. split.
  - exists [nth 0 ex_vars (mk_var [] None None); nth 1 ex_vars (mk_var [] None None)], (nth 2 ex_vars (mk_var [] None None)), [].
    split; [reflexivity|]. intros x [<-|[<-|[]]]; reflexivity.
  - intros (u & v & w & E & O). destruct u as [|a [|b u]]; cbn in E.
    + injection E as <- <-. specialize (O (mk_var (str "validate_password_length") (Some (str "8")) None) (or_introl eq_refl)). discriminate.
    + injection E as <- <- <-. specialize (O (mk_var (str "validate_password.length") (Some (str "12")) None) (or_introl eq_refl)). discriminate.
    + injection E as <- <- _. specialize (O (mk_var (str "validate_password.length") (Some (str "12")) None) (or_introl eq_refl)). discriminate.
Qed.
(** what the theorems say of it: the session's and the global value are kept apart, refusals change nothing *)
Example C65_example : forall hs ms s', talk (client_caps []) ex_admit ex_server ex_calls hs ms s' ->
  exists e1 e2, conversation (client_caps []) (run true simple_readers ex_calls) (map (understood (client_caps [])) hs) ms
    (Ok [Ok ODone; Ok ODone; Ok ODone; Err e1; Err e2; Ok ODone; Ok (OGot (Some (Some (GBytes (str "x")))));
         Ok (OGot (Some (Some (GInt 90)))); Ok (OGot (Some (Some (GInt 60)))); Ok (OGot (Some (Some (GInt (-5)))))]).
Proof.
  intros hs ms s' T.
  destruct (C65_calls bytes simple_readers (client_caps []) ex_admit true ex_calls ex_server hs ms s' ltac:(repeat constructor) ltac:(discriminate) ex_calls_ok T)
    as (rs & C & Fo & _).
  unfold ex_calls in Fo.
  assert (In1 : forall st x calls rs st', follows simple_readers ex_admit st (x :: calls) rs st' ->
    exists r st1 rs1, rs = r :: rs1 /\ expects simple_readers ex_admit st x r st1 /\ follows simple_readers ex_admit st1 calls rs1 st').
  { intros st x calls rs0 st' H. inversion H; subst. eauto 6. }
  assert (SetU : forall st n a r st1, expects simple_readers ex_admit st (CSetUser n a) r st1 -> r = Ok ODone /\ st1 = set_user n (arg_value a) st).
  { intros st n a r st1 H. inversion H; auto. }
  assert (SetV : forall st g n a r st1, expects simple_readers ex_admit st (CSet g n a) r st1 ->
    match (if known g n (st_vars st) then ex_admit g n (arg_value a) else None) with
    | Some t => r = Ok ODone /\ st1 = mk_store (st_user st) (assign g n t (st_vars st))
    | None => (exists e, r = Err e) /\ st1 = st end).
  { intros st g n a r st1 H. inversion H as [| |? ? ? t K A|? ? ? ? ? ? ? [K|A]|]; subst; rewrite ?K, ?A; auto; [split; eauto|].
    destruct (known _ _ _); split; eauto. }
  assert (GetV : forall st g n q r st1, quoted_as n n -> expects simple_readers ex_admit st (CGet g n q) r st1 ->
    st1 = st /\ r = match listed g n (st_vars st) with [] => Ok (OGot None) | (_, t) :: _ => rmap (fun v => OGot (Some v)) (as_text simple_readers q (Some t)) end).
  { intros st g n q r st1 Q H. inversion H as [| | | |? ? p ? Qp]; subst. split; [reflexivity|]. unfold quoted_as in *. assert (p = n) by congruence. subst. reflexivity. }
  assert (GetU : forall st n q a v r st1, expects simple_readers ex_admit st (CGetUser n q) r st1 -> user_value n (st_user st) = arg_value a -> recalls a q v ->
    st1 = st /\ r = Ok (OGot (Some v))).
  { intros st n q a v r st1 H U Rc. inversion H as [|? ? t Tt| | |]; subst. split; [reflexivity|]. rewrite U in Tt. rewrite (recalled _ simple_readers a q v t Rc Tt). reflexivity. }
  destruct (In1 _ _ _ _ _ Fo) as (r1 & st1 & l1 & -> & X & F1). apply SetU in X as [-> ->]. clear Fo.
  destruct (In1 _ _ _ _ _ F1) as (r2 & st2 & l2 & -> & X & F2). apply SetV in X. vm_compute in X. destruct X as [-> ->]. clear F1.
  destruct (In1 _ _ _ _ _ F2) as (r3 & st3 & l3 & -> & X & F3). apply SetV in X. vm_compute in X. destruct X as [-> ->]. clear F2.
  destruct (In1 _ _ _ _ _ F3) as (r4 & st4 & l4 & -> & X & F4). apply SetV in X. vm_compute in X. destruct X as [[e1 ->] ->]. clear F3.
  destruct (In1 _ _ _ _ _ F4) as (r5 & st5 & l5 & -> & X & F5). apply SetV in X. vm_compute in X. destruct X as [[e2 ->] ->]. clear F4.
  destruct (In1 _ _ _ _ _ F5) as (r6 & st6 & l6 & -> & X & F6). apply SetU in X as [-> ->]. clear F5.
  destruct (In1 _ _ _ _ _ F6) as (r7 & st7 & l7 & -> & X & F7).
  apply (GetU _ _ _ (AString (str "x")) (Some (GBytes (str "x")))) in X; [|vm_compute; reflexivity|split; [right; split; reflexivity|reflexivity]].
  destruct X as [-> ->]. clear F6.
  destruct (In1 _ _ _ _ _ F7) as (r8 & st8 & l8 & -> & X & F8). apply GetV in X; [|vm_compute; reflexivity]. vm_compute in X. destruct X as [-> ->]. clear F7.
  destruct (In1 _ _ _ _ _ F8) as (r9 & st9 & l9 & -> & X & F9). apply GetV in X; [|vm_compute; reflexivity]. vm_compute in X. destruct X as [-> ->]. clear F8.
  destruct (In1 _ _ _ _ _ F9) as (r10 & st10 & l10 & -> & X & F10).
  apply (GetU _ _ _ (AI32 (-5)) (Some (GInt (-5)))) in X; [|vm_compute; reflexivity|left; exists 32, false; split; [reflexivity|split; [split; vm_compute; congruence|reflexivity]]].
  destruct X as [-> ->]. inversion F10; subst. exists e1, e2. exact C.
Qed.
