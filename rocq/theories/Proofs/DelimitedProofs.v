(** * Proofs: which strings survive being sent (C13, C16, C18) *)
From Verif Require Import Model.Base Model.BytesParser Model.LenEnc Model.Utf8 Model.Flags Model.Packet Model.Cmd
  Spec.Nums Spec.Codec Spec.LenEncSpec Spec.Wire Spec.Packets Spec.Commands Spec.Delimited
  Proofs.BaseLemmas Proofs.BytesParserProofs Proofs.CodecProofs Proofs.LenEncProofs Proofs.WireLemmas Proofs.PacketProofs
  Proofs.CmdProofs.
Open Scope N_scope.

(** ** inverting decoders *)
Lemma dbind_inv {A B} (d : dec A) (f : A -> dec B) m x : dbind d f m = Some x ->
  exists a rest, d m = Some (a, rest) /\ f a rest = Some x.
Proof. unfold dbind. destruct (d m) as [[a rest]|]; [eauto|discriminate]. Qed.

Lemma dcstr_inv m : forall a r, dcstr m = Some (a, r) -> no_nul a /\ m = a ++ x00 :: r.
Proof.
  unfold no_nul. induction m as [|b m IH]; intros a r H; [discriminate|]. cbn in H.
  destruct (byte_eqb_spec b x00) as [->|Hb].
  - injection H as <- <-. split; [intros []|reflexivity].
  - destruct (dcstr m) as [[a' r']|]; [|discriminate]. injection H as <- <-.
    destruct (IH _ _ eq_refl) as [Hn ->]. split; [|reflexivity]. intros [E|E]; [apply Hb; exact E|exact (Hn E)].
Qed.
Lemma dcstr_same s rest r : dcstr (s ++ x00 :: rest) = Some (s, r) -> no_nul s /\ r = rest.
Proof.
  intros H. apply dcstr_inv in H. destruct H as [Hn H]. split; [exact Hn|].
  apply app_inv_head in H. congruence.
Qed.
Lemma dbytes_inv k : forall m a r, dbytes k m = Some (a, r) -> m = a ++ r /\ length a = k.
Proof.
  induction k as [|k IH]; intros m a r H.
  - destruct m; injection H as <- <-; split; reflexivity.
  - destruct m as [|b m]; [discriminate|]. cbn in H. destruct (dbytes k m) as [[x y]|] eqn:E; [|discriminate].
    injection H as <- <-. destruct (IH _ _ _ E) as [-> <-]. split; reflexivity.
Qed.
(** a length byte that was cut to eight bits *)
Lemma dstr1_same s rest r : dstr1 (n2b (trunc 8 (blen s)) :: s ++ rest) = Some (s, r) -> blen s < 256 /\ r = rest.
Proof.
  intros H. unfold dstr1 in H. assert (Hk : trunc 8 (blen s) < 256) by (unfold trunc; lia).
  rewrite (dbind_some _ _ _ _ _ (d_le1 _ _ Hk)) in H. apply dbytes_inv in H. destruct H as [H L].
  apply app_inv_head in H. split; [|congruence]. unfold blen in *. lia.
Qed.

(** ** length encoded strings *)
Lemma lei_251 s : lei_write (lei_from 251) ++ s = xfb :: s.
Proof. reflexivity. Qed.
Lemma dlstr_inv s rest a r : blen s < 2 ^ 64 ->
  dlstr (lei_write (lei_from (blen s)) ++ s ++ rest) = Some (a, r) -> blen s <> 251 /\ a = s /\ r = rest.
Proof.
  intros H E. destruct (N.eq_dec (blen s) 251) as [E1|E1].
  - rewrite E1, lei_251 in E. generalize dependent (s ++ rest). intros m E. discriminate E.
  - rewrite lei_write_wlenenc, d_lstr in E by assumption. injection E as <- <-. auto.
Qed.

(** ** the attributes *)
Lemma wlenenc_length n : (1 <= length (wlenenc n))%nat.
Proof. destruct (wlenenc_nonempty n) as (b & l & E). rewrite E. cbn. lia. Qed.
Lemma wire_cons a l : blen (attrs_wire (a :: l)) < 2 ^ 64 ->
  blen (at_key a) < 2 ^ 64 /\ blen (at_value a) < 2 ^ 64 /\ blen (attrs_wire l) < 2 ^ 64.
Proof.
  unfold blen. cbn [attrs_wire flat_map]. fold (attrs_wire l). unfold wlstr. rewrite !app_length. lia.
Qed.
Lemma attrs_ok l : blen (attrs_wire l) < 2 ^ 64 ->
  Forall (fun a => not_251 (at_key a) /\ not_251 (at_value a)) l -> Forall attr_ok l.
Proof.
  intros Hb H. induction H as [|a l [H1 H2] _ IH]; [constructor|].
  apply wire_cons in Hb. destruct Hb as (K & V & Hb). constructor; [|exact (IH Hb)].
  split; split; assumption.
Qed.
Lemma attrs_bytes_le l : blen (attrs_wire l) < 2 ^ 64 -> (length (attrs_bytes l) <= length (attrs_wire l))%nat.
Proof.
  induction l as [|a l IH]; intros Hb; [reflexivity|].
  pose proof (wire_cons _ _ Hb) as (K & V & Hl). specialize (IH Hl).
  cbn [attrs_wire attrs_bytes flat_map]. fold (attrs_wire l) (attrs_bytes l). unfold wlstr. rewrite !app_length.
  fold (blen (at_key a)) (blen (at_value a)).
  assert (F : forall n, n < 2 ^ 64 -> (length (lei_write (lei_from n)) <= length (wlenenc n))%nat).
  { intros n Hn. destruct (N.eq_dec n 251) as [->|E]; [cbn; lia|]. rewrite lei_write_wlenenc by assumption. reflexivity. }
  pose proof (F _ K). pose proof (F _ V). lia.
Qed.
Lemma dpairs_ok l : forall fuel x, blen (attrs_wire l) < 2 ^ 64 -> dpairs fuel (attrs_bytes l) = Some x ->
  Forall (fun a => not_251 (at_key a) /\ not_251 (at_value a)) l.
Proof.
  induction l as [|a l IH]; intros fuel x Hb E; [constructor|].
  apply wire_cons in Hb. destruct Hb as (K & V & Hb).
  assert (Ne : exists b t, attrs_bytes (a :: l) = b :: t).
  { cbn [attrs_bytes flat_map]. unfold lei_from at 1.
    repeat match goal with |- context [if ?c then _ else _] => destruct c end; cbn [lei_write app]; eauto. }
  destruct Ne as (b & t & Ne).
  destruct fuel as [|fuel]; [rewrite Ne in E; discriminate|].
  rewrite Ne in E. cbn [dpairs] in E. rewrite <- Ne in E. clear Ne b t.
  cbn [attrs_bytes flat_map] in E. fold (attrs_bytes l) in E. rewrite <- !app_assoc in E.
  match type of E with match ?d with _ => _ end = _ => destruct d as [[kv rest]|] eqn:D; [|discriminate] end.
  apply dbind_inv in D. destruct D as (k & r1 & D1 & D). apply dlstr_inv in D1; [|exact K].
  destruct D1 as (K1 & -> & ->).
  apply dbind_inv in D. destruct D as (v & r2 & D2 & D). apply dlstr_inv in D2; [|exact V].
  destruct D2 as (V1 & -> & ->). injection D as <- <-.
  destruct (dpairs fuel (attrs_bytes l)) as [y|] eqn:E2; [|discriminate].
  constructor; [split; assumption|]. exact (IH _ _ Hb E2).
Qed.

Lemma dattrs_send l rest : blen (attrs_wire l) < 2 ^ 64 -> attrs_sendable l ->
  dattrs (lei_write (lei_from (blen (attrs_bytes l))) ++ attrs_bytes l ++ rest)
  = Some (map (fun a => (at_key a, at_value a)) l, rest).
Proof.
  intros Hb [Hl Hw]. pose proof (attrs_ok _ Hb Hl) as Ho. rewrite (attrs_bytes_wire _ Ho).
  rewrite lei_write_wlenenc by assumption. unfold dattrs.
  rewrite (dbind_some _ _ _ _ _ (d_lstr _ _ Hb)). rewrite <- (attrs_bytes_wire _ Ho).
  rewrite dpairs_attrs by auto. reflexivity.
Qed.
Lemma dattrs_inv l rest x r : blen (attrs_wire l) < 2 ^ 64 ->
  dattrs (lei_write (lei_from (blen (attrs_bytes l))) ++ attrs_bytes l ++ rest) = Some (x, r) ->
  attrs_sendable l /\ r = rest.
Proof.
  intros Hb E. pose proof (attrs_bytes_le _ Hb) as L. unfold dattrs in E.
  apply dbind_inv in E. destruct E as (block & r1 & E1 & E).
  apply dlstr_inv in E1; [|unfold blen in *; lia]. destruct E1 as (E1 & -> & ->).
  destruct (dpairs _ _) as [y|] eqn:E2; [|discriminate]. injection E as <- <-.
  pose proof (dpairs_ok _ _ _ Hb E2) as Hl. split; [|reflexivity]. split; [exact Hl|].
  rewrite (attrs_bytes_wire _ (attrs_ok _ Hb Hl)) in E1. exact E1.
Qed.

(** ** optional fields *)
Lemma dopt_inv {A B} (c : bool) (d : dec A) (k : option A -> dec B) m x : dbind (dopt c d) k m = Some x ->
  exists o r, k o r = Some x /\ if c then exists a, o = Some a /\ d m = Some (a, r) else o = None /\ r = m.
Proof.
  intros H. apply dbind_inv in H. destruct H as (o & r & H1 & H2). exists o, r. split; [exact H2|].
  destruct c; cbn in H1.
  - apply dbind_inv in H1. destruct H1 as (a & r1 & H1 & E). injection E as <- <-. eauto.
  - injection H1 as <- <-. auto.
Qed.

(** ** the login's authentication data *)
Definition dauth (cap : N) : dec bytes :=
  if cap_lenenc_auth cap then dlstr
  else if cap_secure_connection cap then (n <-- dle 1 ;; dbytes (N.to_nat n)) else dcstr.

Lemma lei_short s : blen s <= 251 -> lei_write (lei_from (blen s)) = [n2b (blen s)].
Proof. intros H. unfold lei_from. destruct (N.leb_spec (blen s) 0xfb); [reflexivity|lia]. Qed.
Lemma dauth_send cap auth rest : blen auth < 2 ^ 64 -> auth_sendable cap auth ->
  dauth cap (lei_write (lei_from (blen auth)) ++ auth ++ rest) = Some (auth, rest).
Proof.
  intros H. unfold auth_sendable, dauth. destruct (cap_lenenc_auth cap).
  - intros Hn. rewrite lei_write_wlenenc by assumption. apply d_lstr. exact H.
  - destruct (cap_secure_connection cap).
    + intros Hn. fold (blen auth) in Hn. rewrite lei_short by exact Hn. cbn [app].
      rewrite (dbind_some _ _ _ _ _ (d_le1 _ _ (ltac:(lia) : blen auth < 256))).
      apply d_bytes. unfold blen. apply Nat2N.id.
    + intros ->. reflexivity.
Qed.

Lemma lei_long n : 251 < n -> exists b t, lei_write (lei_from n) = b :: t /\ 252 <= b2n b /\ (2 <= length t <= 8)%nat.
Proof.
  intros H. unfold lei_from. destruct (N.leb_spec n 0xfb); [lia|].
  destruct (n <=? 0xffff); [|destruct (n <=? 0xffffff)]; cbn [lei_write]; do 2 eexists;
    (split; [reflexivity|split; [vm_compute; discriminate|cbn; lia]]).
Qed.

Lemma dauth_inv cap auth rest r : blen auth < 2 ^ 64 ->
  dauth cap (lei_write (lei_from (blen auth)) ++ auth ++ rest) = Some (auth, r) ->
  (auth_sendable cap auth /\ r = rest) \/ (cap_lenenc_auth cap = false /\ (length rest < length r)%nat).
Proof.
  intros H. unfold auth_sendable, dauth. destruct (cap_lenenc_auth cap).
  - intros E. apply dlstr_inv in E; [|exact H]. destruct E as (E & _ & ->). left. split; [exact E|reflexivity].
  - destruct (cap_secure_connection cap).
    + intros E. destruct (N.leb_spec (blen auth) 251) as [L|L].
      * rewrite lei_short in E by exact L. cbn [app] in E.
        rewrite (dbind_some _ _ _ _ _ (d_le1 _ _ (ltac:(lia) : blen auth < 256))) in E.
        rewrite d_bytes in E by (unfold blen; apply Nat2N.id). injection E as <-. left. split; [exact L|reflexivity].
      * right. split; [reflexivity|]. destruct (lei_long _ L) as (b & t & E1 & _ & Ht). rewrite E1 in E. cbn [app] in E.
        apply dbind_inv in E. destruct E as (n & m & E2 & E). cbn in E2.
        assert (Em : m = t ++ auth ++ rest).
        { destruct (t ++ auth ++ rest); injection E2 as _ <-; reflexivity. }
        subst m. apply dbytes_inv in E. destruct E as [E _]. apply (f_equal (@length byte)) in E.
        rewrite !app_length in E. lia.
    + intros E. left. apply dcstr_inv in E. destruct E as [Hn E].
      destruct (N.leb_spec (blen auth) 251) as [L|L].
      * rewrite lei_short in E by exact L. destruct auth as [|a auth].
        -- cbn in E. injection E as <-. split; reflexivity.
        -- exfalso. cbn [app] in E.
           (* the byte behind the string is the string's last *)
           assert (F : nth_error (n2b (blen (a :: auth)) :: (a :: auth) ++ rest) (length (a :: auth)) = Some x00).
           { cbn [app]. rewrite E. change (a :: auth ++ x00 :: r) with ((a :: auth) ++ x00 :: r).
             rewrite nth_error_app2 by lia. rewrite Nat.sub_diag. reflexivity. }
           cbn [length nth_error] in F. rewrite nth_error_app1 in F by (cbn; lia).
           apply nth_error_In in F. exact (Hn F).
      * exfalso. destruct (lei_long _ L) as (b & t & E1 & _ & Ht). rewrite E1 in E.
        assert (F : nth_error ((b :: t) ++ auth ++ rest) (length auth) = Some x00).
        { rewrite E, nth_error_app2 by lia. rewrite Nat.sub_diag. reflexivity. }
        unfold blen in L.
        rewrite nth_error_app2 in F by (cbn [length]; lia).
        rewrite nth_error_app1 in F by (cbn [length]; lia).
        apply nth_error_In in F. exact (Hn F).
Qed.

(** ** the login *)
Definition write_login (r : handshake_response) : bytes :=
  wle 4 (hr_cap r) ++ wle 4 (hr_max_packet r) ++ n2b (hr_charset r) :: repeat x00 23 ++
  hr_username r ++ x00 :: lei_write (lei_from (blen (hr_auth r))) ++ hr_auth r ++
  (if cap_connect_with_db (hr_cap r) then hr_database r ++ [x00] else []) ++
  (if cap_plugin_auth (hr_cap r) then hr_plugin r ++ [x00] else []) ++
  (if cap_connect_attrs (hr_cap r)
   then lei_write (lei_from (blen (attrs_bytes (hr_attrs r)))) ++ attrs_bytes (hr_attrs r) else []).
Lemma write_login_eq r : write_handshake_response r = write_login r.
Proof.
  unfold write_handshake_response, write_login. rewrite contains_db, contains_plugin, contains_attrs.
  unfold write_le_u32, write_u8. rewrite <- !wle_to_le. reflexivity.
Qed.

Lemma login_exact r : hr_cap r < 2 ^ 32 -> hr_max_packet r < 2 ^ 32 -> hr_charset r < 2 ^ 8 ->
  N.of_nat (length (hr_auth r)) < 2 ^ 64 -> N.of_nat (length (attrs_wire (hr_attrs r))) < 2 ^ 64 ->
  cap_lenenc_auth (hr_cap r) = true \/ cap_connect_attrs (hr_cap r) = false ->
  server_login (write_handshake_response r) = Some (login_meant r, []) <-> login_sendable r.
Proof.
  intros Hcap Hmp Hcs Ha Hat Hmode. rewrite write_login_eq. unfold write_login, login_meant.
  change (server_login) with (
    cap <-- dle 4 ;; max_packet <-- dle 4 ;; charset <-- dle 1 ;; _ <-- dbytes 23 ;; user <-- dcstr ;;
    auth <-- dauth cap ;; db <-- dopt (cap_connect_with_db cap) dcstr ;; plugin <-- dopt (cap_plugin_auth cap) dcstr ;;
    attrs <-- dopt (cap_connect_attrs cap) dattrs ;; _ <-- dend ;;
    dret (mk_login cap max_packet charset user auth db plugin attrs)).
  assert (Start : forall (k : N -> N -> N -> dec login) rest x,
    (cap <-- dle 4 ;; mp <-- dle 4 ;; cs <-- dle 1 ;; _ <-- dbytes 23 ;; k cap mp cs)
      (wle 4 (hr_cap r) ++ wle 4 (hr_max_packet r) ++ n2b (hr_charset r) :: repeat x00 23 ++ rest) = x
    <-> k (hr_cap r) (hr_max_packet r) (hr_charset r) rest = x).
  { intros k rest x.
    rewrite (dbind_some _ _ _ _ _ (d_le 4 _ _ (ltac:(exact Hcap) : hr_cap r < 2 ^ (8 * N.of_nat 4)))).
    rewrite (dbind_some _ _ _ _ _ (d_le 4 _ _ (ltac:(exact Hmp) : hr_max_packet r < 2 ^ (8 * N.of_nat 4)))).
    rewrite (dbind_some _ _ _ _ _ (d_le1 _ _ Hcs)).
    rewrite (dbind_some _ _ _ _ _ (d_bytes (repeat x00 23) _ 23 eq_refl)). reflexivity. }
  rewrite (Start (fun cap max_packet charset => user <-- dcstr ;;
    auth <-- dauth cap ;; db <-- dopt (cap_connect_with_db cap) dcstr ;; plugin <-- dopt (cap_plugin_auth cap) dcstr ;;
    attrs <-- dopt (cap_connect_attrs cap) dattrs ;; _ <-- dend ;;
    dret (mk_login cap max_packet charset user auth db plugin attrs))).
  clear Start. unfold login_sendable. split.
  - intros E. apply dbind_inv in E. destruct E as (u & r1 & Eu & E).
    apply dbind_inv in E. destruct E as (a & r2 & Ea & E).
    apply dopt_inv in E. destruct E as (odb & r3 & E & Edb).
    apply dopt_inv in E. destruct E as (opl & r4 & E & Epl).
    apply dopt_inv in E. destruct E as (oat & r5 & E & Eat).
    apply dbind_inv in E. destruct E as ([] & r6 & Een & E).
    injection E as -> -> -> -> -> ->.
    assert (r5 = []) by (destruct r5; [reflexivity|discriminate Een]). subst r5. clear Een.
    apply dcstr_same in Eu. destruct Eu as [Hu ->].
    apply dauth_inv in Ea; [|exact Ha]. destruct Ea as [[Hs ->]|[Hl L]].
    + split; [exact Hu|]. split; [exact Hs|].
      assert (P : forall (c : bool) s rest r0 ,
        (if c then exists x, (if c then Some s else None) = Some x /\ dcstr ((if c then s ++ [x00] else []) ++ rest) = Some (x, r0)
         else (if c then Some s else None) = None /\ r0 = (if c then s ++ [x00] else []) ++ rest) ->
        (c = true -> no_nul s) /\ r0 = rest).
      { intros [|] s rest r0 D.
        - destruct D as (x & [= <-] & D). rewrite <- app_assoc in D. apply dcstr_same in D. destruct D. split; auto.
        - destruct D as [_ ->]. split; [discriminate|reflexivity]. }
      apply P in Edb. destruct Edb as [Hdb ->]. apply P in Epl. destruct Epl as [Hpl ->].
      split; [exact Hdb|]. split; [exact Hpl|]. intros Hc. rewrite Hc in Eat.
      destruct Eat as (x & _ & Eat). rewrite <- (app_nil_r (attrs_bytes _)) in Eat.
      replace (blen (attrs_bytes (hr_attrs r) ++ [])) with (blen (attrs_bytes (hr_attrs r))) in Eat by (rewrite app_nil_r; reflexivity).
      apply dattrs_inv in Eat; [|exact Hat]. exact (proj1 Eat).
    + exfalso. destruct Hmode as [Hm|Hm]; [congruence|]. rewrite Hm in *. destruct Eat as [_ <-].
      rewrite app_nil_r in L.
      assert (P : forall (c : bool) s m r0,
        (if c then exists x, (if c then Some s else None) = Some x /\ dcstr m = Some (x, r0)
         else (if c then Some s else None) = None /\ r0 = m) ->
        length m = (length (if c then s ++ [x00] else []) + length r0)%nat).
      { intros [|] s m r0 D.
        - destruct D as (x & [= <-] & D). apply dcstr_inv in D. destruct D as [_ ->]. rewrite !app_length. cbn. lia.
        - destruct D as [_ ->]. reflexivity. }
      apply P in Edb. apply P in Epl. rewrite app_length in L. cbn [length] in Epl. lia.
  - intros (Hu & Hs & Hdb & Hpl & Hc).
    rewrite (dbind_some _ _ _ _ _ (d_cstr _ _ Hu)).
    rewrite (dbind_some _ _ _ _ _ (dauth_send _ _ _ Ha Hs)).
    rewrite dopt_step with (a := hr_database r)
      by (intros; rewrite <- app_assoc; apply d_cstr; auto).
    rewrite dopt_step with (a := hr_plugin r)
      by (intros; rewrite <- app_assoc; apply d_cstr; auto).
    rewrite <- (app_nil_r (if cap_connect_attrs _ then _ else _)).
    rewrite dopt_step with (a := map (fun a => (at_key a, at_value a)) (hr_attrs r)).
    + reflexivity.
    + intros Hx. rewrite <- app_assoc. apply dattrs_send; auto.
Qed.

(** ** commands *)
Lemma request_inv cap code args r : code < 256 -> server_request cap (n2b code :: args) = Some r ->
  darguments cap code args = Some (r, []).
Proof.
  intros Hc H. unfold server_request in H. rewrite (dbind_some _ _ _ _ _ (d_le1 _ _ Hc)) in H.
  unfold dbind in H. destruct (darguments cap code args) as [[x m]|]; [|discriminate].
  destruct m; [|discriminate]. injection H as ->. reflexivity.
Qed.

Lemma field_list_exact cap t w :
  server_request cap (write_field_list t w) = Some (RqFieldList t w) <-> no_nul t.
Proof.
  split; [|apply sr_field_list]. intros H. unfold write_field_list, write_u8, write_bytes in H. cbn [app] in H.
  apply request_inv in H; [|reflexivity]. cbn [command_byte darguments] in H.
  apply dbind_inv in H. destruct H as (a & m & E & H).
  apply dbind_inv in H. destruct H as (b & m2 & _ & H). injection H as -> _ _.
  apply dcstr_same in E. exact (proj1 E).
Qed.

Lemma table_dump_exact cap db t :
  server_request cap (write_table_dump db t) = Some (RqTableDump db t) <->
  N.of_nat (length db) < 256 /\ N.of_nat (length t) < 256.
Proof.
  split; [|intros [H1 H2]; apply sr_table_dump; assumption].
  intros H. unfold write_table_dump, write_u8, write_bytes in H. cbn [app] in H.
  apply request_inv in H; [|reflexivity]. cbn [command_byte darguments] in H.
  apply dbind_inv in H. destruct H as (a & m & E & H).
  apply dbind_inv in H. destruct H as (b & m2 & E2 & H). injection H as -> -> ->.
  apply dstr1_same in E. destruct E as [E ->]. rewrite <- (app_nil_r t) in E2 at 2.
  apply dstr1_same in E2. destruct E2 as [E2 _]. split; assumption.
Qed.

Lemma register_slave_exact cap id h u p port rank master :
  id < 2 ^ 32 -> port < 2 ^ 16 -> rank < 2 ^ 32 -> master < 2 ^ 32 ->
  server_request cap (write_register_slave (mk_rs id h u p port rank master))
  = Some (RqRegisterSlave id h u p port rank master) <->
  N.of_nat (length h) < 256 /\ N.of_nat (length u) < 256 /\ N.of_nat (length p) < 256.
Proof.
  intros H1 H2 H3 H4. rewrite (sr_register_slave_cut cap id h u p port rank master H1 H2 H3 H4).
  assert (F : forall s, cut256 s = s <-> N.of_nat (length s) < 256).
  { intros s. split; [|apply cut256_short]. intros E. destruct (N.ltb_spec (N.of_nat (length s)) 256) as [L|L]; [exact L|].
    exfalso. exact (cut256_long s L E). }
  rewrite <- !F. split; [intros E; injection E as E1 E2 E3; auto|intros (-> & -> & ->); reflexivity].
Qed.

Definition write_change (cap : N) (c : change_user) : bytes :=
  cu_user c ++ x00 ::
  (if cap_secure_connection cap then n2b (trunc 8 (blen (cu_auth c))) :: cu_auth c else cu_auth c ++ [x00]) ++
  cu_schema c ++ x00 :: wle 2 (cu_charset c) ++
  (if cap_plugin_auth cap then cu_plugin c ++ [x00] else []) ++
  (if cap_connect_attrs cap
   then lei_write (lei_from (blen (attrs_bytes (cu_attrs c)))) ++ attrs_bytes (cu_attrs c) else []).
Lemma write_change_eq cap c : write_change_user cap c = n2b (command_byte CmdChangeUser) :: write_change cap c.
Proof.
  unfold write_change_user, write_change. rewrite contains_secure, contains_plugin, contains_attrs, flat_attrs.
  unfold write_u8, write_bytes, write_le_u16. rewrite <- wle_to_le. reflexivity.
Qed.

Lemma change_user_exact cap c : cu_charset c < 2 ^ 16 -> N.of_nat (length (attrs_wire (cu_attrs c))) < 2 ^ 64 ->
  server_request cap (write_change_user cap c) = Some (change_user_meant cap c) <-> change_user_sendable cap c.
Proof.
  intros Hcs Hat. rewrite write_change_eq. unfold change_user_meant, change_user_sendable, write_change. split.
  - intros E. apply request_inv in E; [|reflexivity]. cbn [command_byte darguments] in E. unfold dchange_user in E.
    apply dbind_inv in E. destruct E as (u & r1 & Eu & E).
    apply dbind_inv in E. destruct E as (a & r2 & Ea & E).
    apply dbind_inv in E. destruct E as (d & r3 & Ed & E).
    apply dbind_inv in E. destruct E as (cs & r4 & Ec & E).
    apply dopt_inv in E. destruct E as (opl & r5 & E & Epl).
    apply dopt_inv in E. destruct E as (oat & r6 & E & Eat).
    injection E as -> -> -> -> -> -> ->.
    apply dcstr_same in Eu. destruct Eu as [Hu ->]. split; [exact Hu|].
    assert (A : (if cap_secure_connection cap then N.of_nat (length (cu_auth c)) < 256 else no_nul (cu_auth c)) /\
       r2 = cu_schema c ++ x00 :: wle 2 (cu_charset c) ++
  (if cap_plugin_auth cap then cu_plugin c ++ [x00] else []) ++
  (if cap_connect_attrs cap
   then lei_write (lei_from (blen (attrs_bytes (cu_attrs c)))) ++ attrs_bytes (cu_attrs c) else [])).
    { destruct (cap_secure_connection cap).
      - cbn [app] in Ea. apply dstr1_same in Ea. exact Ea.
      - rewrite <- app_assoc in Ea. apply dcstr_same in Ea. exact Ea. }
    destruct A as [Ha ->]. split; [exact Ha|].
    apply dcstr_same in Ed. destruct Ed as [Hd ->]. split; [exact Hd|].
    rewrite (d_le 2 _ _ (ltac:(exact Hcs) : cu_charset c < 2 ^ (8 * N.of_nat 2))) in Ec. injection Ec as <-.
    assert (P : (cap_plugin_auth cap = true -> no_nul (cu_plugin c)) /\ r5 = (if cap_connect_attrs cap
   then lei_write (lei_from (blen (attrs_bytes (cu_attrs c)))) ++ attrs_bytes (cu_attrs c) else [])).
    { destruct (cap_plugin_auth cap).
      - destruct Epl as (x & [= <-] & D). rewrite <- app_assoc in D. apply dcstr_same in D. destruct D. split; auto.
      - destruct Epl as [_ ->]. split; [discriminate|reflexivity]. }
    destruct P as [Hp ->]. split; [exact Hp|]. intros Hx. rewrite Hx in Eat. destruct Eat as (x & _ & Eat).
    rewrite <- (app_nil_r (attrs_bytes _)) in Eat.
    replace (blen (attrs_bytes (cu_attrs c) ++ [])) with (blen (attrs_bytes (cu_attrs c))) in Eat by (rewrite app_nil_r; reflexivity).
    apply dattrs_inv in Eat; [|exact Hat]. exact (proj1 Eat).
  - intros (Hu & Ha & Hd & Hp & Hx). apply request_of; [reflexivity|]. cbn [command_byte darguments]. unfold dchange_user.
    rewrite (dbind_some _ _ _ _ _ (d_cstr _ _ Hu)).
    assert (Hauth : forall rest,
      (if cap_secure_connection cap then dstr1 else dcstr)
        ((if cap_secure_connection cap then n2b (trunc 8 (blen (cu_auth c))) :: cu_auth c else cu_auth c ++ [x00]) ++ rest)
      = Some (cu_auth c, rest)).
    { intros rest. destruct (cap_secure_connection cap).
      - unfold trunc. rewrite N.mod_small by exact Ha. apply d_str1. exact Ha.
      - rewrite <- app_assoc. apply d_cstr. exact Ha. }
    rewrite (dbind_some _ _ _ _ _ (Hauth _)).
    rewrite (dbind_some _ _ _ _ _ (d_cstr _ _ Hd)).
    rewrite (dbind_some _ _ _ _ _ (d_le 2 _ _ (ltac:(exact Hcs) : cu_charset c < 2 ^ (8 * N.of_nat 2)))).
    rewrite dopt_step with (a := cu_plugin c) by (intros; rewrite <- app_assoc; apply d_cstr; auto).
    rewrite <- (app_nil_r (if cap_connect_attrs _ then _ else _)).
    rewrite dopt_step with (a := map (fun a => (at_key a, at_value a)) (cu_attrs c)).
    + reflexivity.
    + intros Hy. rewrite <- app_assoc. apply dattrs_send; auto.
Qed.
