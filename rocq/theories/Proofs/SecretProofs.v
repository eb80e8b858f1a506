(** * Proofs for C71: what the client does depends on a password only through its digests *)
From Coq Require Import Lia.
From Verif Require Import Model.Base Model.BytesParser Model.Packet Model.Conn Model.Auth Model.Session Model.Event Model.Stream
  Model.Transform Model.MyBinlog Model.Tools Spec.AuthSpec Proofs.BaseLemmas.
Open Scope N_scope.

Lemma ibind_ext {A B} (m : io A) (f g : A -> io B) : (forall a c, f a c = g a c) -> forall c, ibind m f c = ibind m g c.
Proof. intros H c. unfold ibind. destruct (m c) as [[a| | |] c']; auto. Qed.
Lemma ibind_lift_ext {A B} (r : res A) (f g : A -> io B) : (forall a c, r = Ok a -> f a c = g a c) ->
  forall c, ibind (ilift r) f c = ibind (ilift r) g c.
Proof. intros H c. unfold ibind, ilift. destruct r; auto. Qed.

Section Secret.
  Variables sha1 sha256 : bytes -> bytes.
  Variables p q : bytes.
  Hypothesis H1 : sha1 p = sha1 q.
  Hypothesis H256 : sha256 p = sha256 q.
  Hypothesis He : p = [] <-> q = [].

  (** the same plugin, with the one or the other password *)
  Inductive alike : auth_plugin -> auth_plugin -> Prop :=
  | AlikeNative : alike (Native p) (Native q)
  | AlikeSha2 : forall seed stage, alike (Sha2 p seed stage false) (Sha2 q seed stage false).

  Lemma next_alike P Q input : alike P Q ->
    fst (auth_next sha1 sha256 P input) = fst (auth_next sha1 sha256 Q input) /\
    alike (snd (auth_next sha1 sha256 P input)) (snd (auth_next sha1 sha256 Q input)).
  Proof.
    intros H. assert (p = [] /\ q = [] \/ p <> [] /\ q <> []) as Hc by (destruct p, q; intuition congruence).
    assert (scramble411 sha1 p input = scramble411 sha1 q input) as E1 by (unfold scramble411; rewrite H1; reflexivity).
    assert (forall s, scramble_caching_sha2 sha256 p s = scramble_caching_sha2 sha256 q s) as E2
      by (intros s; unfold scramble_caching_sha2; rewrite H256; reflexivity).
    destruct H as [|seed stage]; cbn [auth_next]; destruct Hc as [[Ep Eq]|[Np Nq]].
    - rewrite Ep, Eq. cbn [fst snd]. split; [reflexivity|]. rewrite <- Ep at 1. rewrite <- Eq at 1. constructor.
    - destruct p as [|x p'] eqn:Ep; [contradiction|]. destruct q as [|y q'] eqn:Eq; [contradiction|]. cbn [fst snd].
      rewrite E1. split; [reflexivity|]. rewrite <- Ep, <- Eq. constructor.
    - rewrite Ep, Eq. cbn [fst snd]. split; [reflexivity|]. rewrite <- Ep at 1. rewrite <- Eq at 1. constructor.
    - destruct p as [|x p'] eqn:Ep; [contradiction|]. destruct q as [|y q'] eqn:Eq; [contradiction|]. rewrite <- Ep, <- Eq in *.
      destruct stage; cbn [fst snd full_auth].
      + rewrite E2. split; [reflexivity|constructor].
      + destruct input as [|b r]; [split; [reflexivity|constructor]|].
        destruct (b2n b =? 3); [split; [reflexivity|constructor]|].
        destruct (b2n b =? 4); split; try reflexivity; constructor.
      + split; [reflexivity|constructor].
      + split; [reflexivity|constructor].
  Qed.
  Lemma init_alike name P seed : new_auth_plugin name = Ok P ->
    fst (gen_init_auth_resp sha1 sha256 P p seed) = fst (gen_init_auth_resp sha1 sha256 P q seed) /\
    alike (snd (gen_init_auth_resp sha1 sha256 P p seed)) (snd (gen_init_auth_resp sha1 sha256 P q seed)).
  Proof.
    intros H. unfold gen_init_auth_resp. apply next_alike. unfold new_auth_plugin in H.
    destruct (beqb _ _); [injection H as <-; constructor|].
    destruct (beqb _ _); [injection H as <-; constructor|discriminate].
  Qed.

  Lemma loop_alike checks cap fuel : forall P Q c, alike P Q ->
    handshake_loop sha1 sha256 checks cap fuel P c = handshake_loop sha1 sha256 checks cap fuel Q c.
  Proof.
    induction fuel as [|fuel IH]; intros P Q c H; [reflexivity|]. cbn [handshake_loop].
    apply ibind_ext. intros msg c1. apply ibind_ext. intros m c2. destruct m; try reflexivity.
    destruct (next_alike P Q (am_data p0) H) as [E A].
    destruct (auth_next sha1 sha256 P (am_data p0)) as [r P'], (auth_next sha1 sha256 Q (am_data p0)) as [r' Q'].
    cbn [fst snd] in E, A. subst r'. apply ibind_ext. intros resp c3. apply ibind_ext. intros u c4. apply IH. exact A.
  Qed.
  Lemma login_alike checks user db c :
    handshake sha1 sha256 checks (mk_opts user p db) c = handshake sha1 sha256 checks (mk_opts user q db) c.
  Proof.
    unfold handshake. apply ibind_ext. intros msg c1. apply ibind_ext. intros hs c2. apply ibind_ext. intros u c3.
    apply ibind_lift_ext. intros P c3' EP. cbn [o_password o_database o_username].
    destruct (init_alike _ P (hs_auth_data_1 hs ++ hs_auth_data_2 hs) EP) as [E A].
    destruct (gen_init_auth_resp sha1 sha256 P p _) as [r P'], (gen_init_auth_resp sha1 sha256 P q _) as [r' Q'].
    cbn [fst snd] in E, A. subst r'. apply ibind_ext. intros resp c4. apply ibind_ext. intros v c5.
    apply ibind_ext. intros w c6. apply loop_alike. exact A.
  Qed.
  Lemma change_loop_alike checks fuel : forall P Q c,
    match P, Q with Some P, Some Q => alike P Q | None, None => True | _, _ => False end ->
    change_user_loop sha1 sha256 checks p fuel P c = change_user_loop sha1 sha256 checks q fuel Q c.
  Proof.
    induction fuel as [|fuel IH]; intros P Q c H; [reflexivity|]. cbn [change_user_loop].
    apply ibind_ext. intros msg c1. apply ibind_ext. intros r c2. destruct r as [err|switch|ok|more]; try reflexivity.
    - apply ibind_lift_ext. intros P0 c3 EP. destruct (init_alike _ P0 (sw_data switch) EP) as [E A].
      destruct (gen_init_auth_resp sha1 sha256 P0 p _) as [r P'], (gen_init_auth_resp sha1 sha256 P0 q _) as [r' Q'].
      cbn [fst snd] in E, A. subst r'. apply ibind_ext. intros resp c4. apply ibind_ext. intros v c5. apply IH. exact A.
    - destruct P as [P|], Q as [Q|]; try contradiction; [|reflexivity].
      destruct (next_alike P Q (am_data more) H) as [E A].
      destruct (auth_next sha1 sha256 P (am_data more)) as [r P'], (auth_next sha1 sha256 Q (am_data more)) as [r' Q'].
      cbn [fst snd] in E, A. subst r'. apply ibind_ext. intros resp c3. apply ibind_ext. intros u c4. apply IH. exact A.
  Qed.
  Lemma change_alike checks user db attrs c :
    conn_change_user sha1 sha256 checks user p db attrs c = conn_change_user sha1 sha256 checks user q db attrs c.
  Proof. unfold conn_change_user. apply ibind_ext. intros u c1. apply change_loop_alike. exact I. Qed.

  Lemma connect_alike checks user s : connect sha1 sha256 checks user p s = connect sha1 sha256 checks user q s.
  Proof. unfold connect. destruct s; [|reflexivity]. rewrite login_alike. reflexivity. Qed.
  Lemma list_alike checks user s : exec_list sha1 sha256 checks user p s = exec_list sha1 sha256 checks user q s.
  Proof. unfold exec_list. rewrite connect_alike. reflexivity. Qed.
  Lemma dml_alike fmt_f32 fmt_f64 crc checks compile uuid random_id user filename until_now df tf block limit s1 s2 :
    exec_dml sha1 sha256 fmt_f32 fmt_f64 crc checks compile uuid random_id user p filename until_now df tf block limit s1 s2 =
    exec_dml sha1 sha256 fmt_f32 fmt_f64 crc checks compile uuid random_id user q filename until_now df tf block limit s1 s2.
  Proof. unfold exec_dml. rewrite !connect_alike. reflexivity. Qed.
  Lemma watch_alike crc checks uuid random_id user s :
    watch sha1 sha256 crc checks uuid random_id (CTcp user p) s = watch sha1 sha256 crc checks uuid random_id (CTcp user q) s.
  Proof. unfold watch. rewrite connect_alike. reflexivity. Qed.
End Secret.

(** ** Replays *)
Lemma xorb8_cancel x y : xorb8 (xorb8 x y) y = x.
Proof.
  apply b2n_inj. unfold xorb8.
  assert (forall a b : byte, N.lxor (Byte.to_N a) (Byte.to_N b) < 256) as L.
  { intros a b. destruct (N.eq_dec (N.lxor (Byte.to_N a) (Byte.to_N b)) 0) as [->|Hz]; [reflexivity|].
    change 256 with (2 ^ 8). apply N.log2_lt_pow2; [lia|]. pose proof (N.log2_lxor (Byte.to_N a) (Byte.to_N b)) as G.
    assert (forall z : byte, N.log2 (Byte.to_N z) < 8) as T.
    { intros z. destruct (N.eq_dec (Byte.to_N z) 0) as [->|]; [reflexivity|]. apply N.log2_lt_pow2; [lia|].
      pose proof (Byte.to_N_bounded z). change (2 ^ 8) with 256. lia. }
    pose proof (T a). pose proof (T b). lia. }
  change Byte.to_N with b2n in *. rewrite (b2n_n2b_small (N.lxor (b2n x) (b2n y))) by apply L.
  rewrite N.lxor_assoc, N.lxor_nilpotent, N.lxor_0_r. apply b2n_n2b_small. unfold b2n. pose proof (Byte.to_N_bounded x). lia.
Qed.
Lemma bxor_cancel : forall r a x, bxor r a = Some x -> bxor x a = Some r.
Proof.
  induction r as [|b r IH]; intros [|c a] x H; try discriminate; cbn [bxor] in H.
  - injection H as <-. reflexivity.
  - destruct (bxor r a) as [y|] eqn:E; [|discriminate]. injection H as <-. cbn [bxor]. rewrite (IH _ _ E), xorb8_cancel. reflexivity.
Qed.
Lemma bxor_inj_r r : forall a b x, bxor r a = Some x -> bxor r b = Some x -> a = b.
Proof.
  induction r as [|z r IH]; intros [|c a] [|d b] x Ha Hb; try discriminate; [reflexivity|]. cbn [bxor] in Ha, Hb.
  destruct (bxor r a) as [y|] eqn:Ea; [|discriminate]. destruct (bxor r b) as [y'|] eqn:Eb; [|discriminate].
  injection Ha as <-. injection Hb as Hb ->. f_equal; [|apply (IH _ _ _ Ea Eb)].
  assert (xorb8 c z = xorb8 d z) as X.
  { unfold xorb8 in *. rewrite (N.lxor_comm (Byte.to_N c)), (N.lxor_comm (Byte.to_N d)). symmetry. exact Hb. }
  rewrite <- (xorb8_cancel c z), X. apply xorb8_cancel.
Qed.
Lemma native_replay (sha1 : bytes -> bytes) stored n1 n2 r :
  native_accepts sha1 stored n1 r -> native_accepts sha1 stored n2 r ->
  n1 = n2 \/ exists x y, x <> y /\ sha1 x = sha1 y.
Proof.
  intros (s1 & E1 & D1) (s2 & E2 & D2). destruct (list_eq_dec Byte.byte_eq_dec s1 s2) as [<-|Hs].
  - pose proof (bxor_inj_r _ _ _ _ E1 E2) as E. destruct (list_eq_dec Byte.byte_eq_dec n1 n2) as [->|Hn]; [left; reflexivity|].
    right. exists (n1 ++ stored), (n2 ++ stored). split; [|exact E]. intros X. apply Hn. apply (app_inv_tail _ _ _ X).
  - right. exists s1, s2. split; [exact Hs|congruence].
Qed.
