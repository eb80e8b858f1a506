From Verif Require Import Model.Base Model.BytesParser Model.Conn Spec.Nums Spec.Framing
  Proofs.BaseLemmas Proofs.BytesParserProofs Proofs.CodecProofs Proofs.LenEncProofs.
Open Scope N_scope.

Lemma ibind_ok {A B} (m : io A) (f : A -> io B) c a c' : m c = (Ok a, c') -> ibind m f c = f a c'.
Proof. unfold ibind. intros ->. reflexivity. Qed.
Lemma ibind_err {A B} (m : io A) (f : A -> io B) c e c' : m c = (Err e, c') -> ibind m f c = (Err e, c').
Proof. unfold ibind. intros ->. reflexivity. Qed.
Lemma ibind_panic {A B} (m : io A) (f : A -> io B) c e c' : m c = (Panic e, c') -> ibind m f c = (Panic e, c').
Proof. unfold ibind. intros ->. reflexivity. Qed.
Lemma ibind_inv {A B} (m : io A) (f : A -> io B) c b c' :
  ibind m f c = (Ok b, c') -> exists a c1, m c = (Ok a, c1) /\ f a c1 = (Ok b, c').
Proof. unfold ibind. destruct (m c) as [[| | |] c1]; try discriminate. eauto. Qed.

(** ** reading *)
Lemma read_exact_ok s : forall k acc a rest, length a = k -> delivered s = a ++ rest ->
  exists s', read_exact k s acc = (Ok (acc ++ a), s') /\ delivered s' = rest /\
             (sched_len s' + k = sched_len s)%nat.
Proof.
  induction s as [|p s IH]; intros k acc a rest Hk Hd.
  - destruct k; destruct a; try discriminate; cbn [delivered app] in Hd.
    + exists []. cbn [read_exact]. rewrite app_nil_r. auto.
  - destruct k as [|k].
    + destruct a; try discriminate. exists (p :: s). destruct p; cbn [read_exact]; rewrite app_nil_r; rewrite Nat.add_0_r; auto.
    + destruct p as [|c|].
      * cbn [delivered] in Hd. destruct (IH (S k) acc a rest Hk Hd) as (s' & E1 & E2 & E3).
        exists s'. cbn [read_exact sched_len]. auto.
      * destruct c as [|b c].
        { cbn [delivered] in Hd. destruct a; discriminate. }
        change (delivered (RData (b :: c) :: s)) with ((b :: c) ++ delivered s) in Hd.
        cbn [read_exact]. destruct (Nat.leb_spec (length (b :: c)) (S k)) as [L|L].
        -- assert (Ha : a = (b :: c) ++ skipn (length (b :: c)) a /\ delivered s = skipn (length (b :: c)) a ++ rest).
           { destruct (app_split _ _ _ _ Hd) as (m & -> & Em); [lia|].
             rewrite skipn_app, skipn_all, Nat.sub_diag. auto. }
           destruct Ha as [Ea Ed].
           destruct (IH (S k - length (b :: c))%nat (acc ++ b :: c) (skipn (length (b :: c)) a) rest) as (s' & E1 & E2 & E3).
           { rewrite skipn_length. lia. }
           { exact Ed. }
           exists s'. rewrite E1, <- app_assoc, <- Ea. split; [reflexivity|]. split; [exact E2|].
           cbn [sched_len]. lia.
        -- exists (RData (skipn (S k) (b :: c)) :: s).
           assert (Ea : a = firstn (S k) (b :: c)).
           { symmetry in Hd. destruct (app_split _ _ _ _ Hd) as (m & -> & Em); [lia|].
             rewrite <- Hk, firstn_app, firstn_all, Nat.sub_diag, app_nil_r. reflexivity. }
           split; [rewrite Ea; reflexivity|]. split.
           ++ assert (Hs : skipn (S k) (b :: c) <> []).
              { intros E. apply (f_equal (@length _)) in E. rewrite skipn_length in E. cbn [length] in *. lia. }
              rewrite <- (firstn_skipn (S k) (b :: c)), <- Ea, <- app_assoc in Hd. apply app_inv_head in Hd.
              destruct (skipn (S k) (b :: c)); [congruence|]. cbn [delivered]. exact Hd.
           ++ cbn [sched_len]. rewrite skipn_length. lia.
      * cbn [delivered] in Hd. destruct a; discriminate.
Qed.

Lemma read_exact_short s : forall k acc, (length (delivered s) < k)%nat ->
  exists s', read_exact k s acc = (Err EIO, s') /\ (sched_len s' <= sched_len s)%nat.
Proof.
  induction s as [|p s IH]; intros k acc H; (destruct k as [|k]; [lia|]).
  - exists []. cbn. auto.
  - destruct p as [|c|].
    + cbn [delivered] in H. destruct (IH _ acc H) as (s' & E & L). exists s'. cbn [read_exact sched_len]. auto.
    + destruct c as [|b c].
      * exists s. cbn [read_exact sched_len length]. auto.
      * change (delivered (RData (b :: c) :: s)) with ((b :: c) ++ delivered s) in H.
        rewrite app_length in H. cbn [read_exact].
        destruct (Nat.leb_spec (length (b :: c)) (S k)); [|lia].
        destruct (IH (S k - length (b :: c))%nat (acc ++ b :: c)) as (s' & E & L); [lia|].
        exists s'. rewrite E. split; [reflexivity|]. cbn [sched_len]. lia.
    + exists s. cbn [read_exact sched_len]. auto.
Qed.

Lemma io_read_exact_ok c k a rest : length a = k -> delivered (c_rd c) = a ++ rest ->
  exists s', io_read_exact k c = (Ok a, set_rd c s') /\ delivered s' = rest /\
             (sched_len s' + k = sched_len (c_rd c))%nat.
Proof.
  intros H1 H2. destruct (read_exact_ok _ k [] a rest H1 H2) as (s' & E1 & E2 & E3).
  exists s'. unfold io_read_exact. rewrite E1. auto.
Qed.
Lemma io_read_exact_short c k : (length (delivered (c_rd c)) < k)%nat ->
  exists s', io_read_exact k c = (Err EIO, set_rd c s').
Proof.
  intros H. destruct (read_exact_short _ k [] H) as (s' & E1 & E2).
  exists s'. unfold io_read_exact. rewrite E1. auto.
Qed.

Lemma le3 l n : is_le 3 n l -> exists l0 l1 l2, l = [l0; l1; l2] /\
  n = b2n l0 + N.shiftl (b2n l1) 8 + N.shiftl (b2n l2) 16.
Proof.
  intros [L V]. destruct (list_len3 _ L) as (l0 & l1 & l2 & ->). exists l0, l1, l2. split; [reflexivity|].
  rewrite <- V. cbn [le_val]. rewrite !N.shiftl_mul_pow2. change (2 ^ 8) with 256. change (2 ^ 16) with 65536.
  unfold b2n. lia.
Qed.

Lemma pkt_nr_next s : (if b2n s =? 0xff then 0 else b2n s + 1) = next_seq s.
Proof.
  unfold next_seq. fold (b2n s). pose proof (b2n_lt s).
  destruct (N.eqb_spec (b2n s) 255) as [->|]; [reflexivity|]. rewrite N.mod_small; lia.
Qed.

(** one packet *)
Lemma recv_packet fuel bs c s p w rest :
  packet_wire s p w -> delivered (c_rd c) = w ++ rest ->
  exists c', recv_loop (S fuel) bs c =
               (if N.of_nat (length p) <? max_payload then iret (bs ++ p) else recv_loop fuel (bs ++ p)) c'
    /\ delivered (c_rd c') = rest /\ c_pkt_nr c' = next_seq s /\ same_but_read c c'
    /\ (sched_len (c_rd c') + 4 <= sched_len (c_rd c))%nat.
Proof.
  intros (l & Hl & ->) Hd. cbn [recv_loop].
  destruct (le3 _ _ Hl) as (l0 & l1 & l2 & -> & Hn).
  rewrite <- app_assoc in Hd.
  destruct (io_read_exact_ok c 3 [l0; l1; l2] _ eq_refl Hd) as (s1 & E1 & D1 & L1).
  rewrite (ibind_ok _ _ _ _ _ E1). rewrite <- Hn.
  cbn [app] in D1. change (s :: p ++ rest) with ([s] ++ (p ++ rest)) in D1.
  destruct (io_read_exact_ok (set_rd c s1) 1 [s] _ eq_refl D1) as (s2 & E2 & D2 & L2).
  rewrite (ibind_ok _ _ _ _ _ E2).
  unfold ibind at 1. rewrite pkt_nr_next.
  set (c2 := set_pkt_nr (set_rd (set_rd c s1) s2) (next_seq s)).
  destruct (io_read_exact_ok c2 (N.to_nat (N.of_nat (length p))) p rest) as (s3 & E3 & D3 & L3).
  { rewrite Nat2N.id. reflexivity. }
  { exact D2. }
  rewrite (ibind_ok _ _ _ _ _ E3).
  exists (set_rd c2 s3). split; [reflexivity|].
  split; [exact D3|]. split; [reflexivity|]. split; [repeat split|].
  cbn [c_rd set_rd set_pkt_nr c2] in *. lia.
Qed.

Lemma recv_loop_message seqs p w : message_wire seqs p w ->
  forall fuel bs c rest, delivered (c_rd c) = w ++ rest -> (sched_len (c_rd c) < fuel)%nat ->
  exists c', recv_loop fuel bs c = (Ok (bs ++ p), c') /\ delivered (c_rd c') = rest
    /\ c_pkt_nr c' = next_seq (last seqs x00) /\ same_but_read c c'.
Proof.
  induction 1 as [s p w Hp Hw|s p w seqs p' w' Hp Hw Hm IH]; intros fuel bs c rest Hd Hf;
    (destruct fuel as [|fuel]; [lia|]).
  - destruct (recv_packet fuel bs c s p w rest Hw Hd) as (c' & E & D & P & S & L).
    exists c'. rewrite E. change full with max_payload in Hp.
    destruct (N.ltb_spec (N.of_nat (length p)) max_payload); [|lia].
    split; [reflexivity|]. split; [exact D|]. split; [exact P|exact S].
  - rewrite <- app_assoc in Hd.
    destruct (recv_packet fuel bs c s p w _ Hw Hd) as (c' & E & D & P & S & L).
    rewrite E. change full with max_payload in Hp.
    destruct (N.ltb_spec (N.of_nat (length p)) max_payload); [lia|].
    destruct (IH fuel (bs ++ p) c' rest D) as (c2 & E2 & D2 & P2 & S2); [lia|].
    exists c2. rewrite E2, app_assoc. split; [reflexivity|]. split; [exact D2|].
    split.
    + rewrite P2. destruct Hm; reflexivity.
    + destruct S as (S1&S3&S4&S5), S2 as (T1&T2&T3&T4). repeat split; congruence.
Qed.

Lemma recv_msg_spec seqs p w c rest : message_wire seqs p w -> delivered (c_rd c) = w ++ rest ->
  exists c', recv_msg c = (Ok p, c') /\ delivered (c_rd c') = rest
    /\ c_pkt_nr c' = next_seq (last seqs x00) /\ same_but_read c c'.
Proof.
  intros Hm Hd. apply (recv_loop_message seqs p w Hm (S (sched_len (c_rd c))) [] c rest Hd). lia.
Qed.

(** a short stream never yields a message *)
Lemma recv_packet_short fuel bs c s p w :
  packet_wire s p w -> (length (delivered (c_rd c)) < length w)%nat ->
  (exists rest, w = delivered (c_rd c) ++ rest) ->
  exists c', recv_loop (S fuel) bs c = (Err EIO, c').
Proof.
  intros (l & Hl & ->) Hshort [rest Hpre]. cbn [recv_loop].
  destruct (le3 _ _ Hl) as (l0 & l1 & l2 & -> & Hn). cbn [app] in Hpre.
  rewrite app_length in Hshort. cbn [length] in Hshort.
  destruct (Nat.ltb_spec (length (delivered (c_rd c))) 3).
  { destruct (io_read_exact_short c 3 ltac:(lia)) as (s' & E). rewrite (ibind_err _ _ _ _ _ E). eauto. }
  destruct (delivered (c_rd c)) as [|d0 [|d1 [|d2 d]]] eqn:Ed; cbn [length] in *; try lia.
  cbn [app] in Hpre. injection Hpre as <- <- <- Hpre.
  destruct (io_read_exact_ok c 3 [l0; l1; l2] d eq_refl Ed) as (s1 & E1 & D1 & L1).
  rewrite (ibind_ok _ _ _ _ _ E1). rewrite <- Hn.
  destruct d as [|d3 d].
  { destruct (io_read_exact_short (set_rd c s1) 1) as (s' & E); [cbn [c_rd set_rd]; rewrite D1; cbn; lia|].
    rewrite (ibind_err _ _ _ _ _ E). eauto. }
  cbn [app] in Hpre. injection Hpre as <- Hpre.
  destruct (io_read_exact_ok (set_rd c s1) 1 [s] d eq_refl D1) as (s2 & E2 & D2 & L2).
  rewrite (ibind_ok _ _ _ _ _ E2).
  unfold ibind at 1.
  match goal with |- context [ibind _ _ ?cc] => set (c2 := cc) end.
  destruct (io_read_exact_short c2 (N.to_nat (N.of_nat (length p)))) as (s' & E).
  { cbn [c_rd set_rd set_pkt_nr c2]. rewrite D2, Nat2N.id. cbn [length] in Hshort. lia. }
  rewrite (ibind_err _ _ _ _ _ E). eauto.
Qed.

Lemma packet_wire_app_short {A} (w w' d rest : list A) :
  w ++ w' = d ++ rest -> (length d < length w)%nat -> exists r, w = d ++ r.
Proof.
  intros E L. symmetry in E. destruct (app_split _ _ _ _ E) as (m & -> & _); [lia|]. eauto.
Qed.

Lemma recv_loop_short seqs p w : message_wire seqs p w ->
  forall fuel bs c rest, w = delivered (c_rd c) ++ rest -> rest <> [] -> (sched_len (c_rd c) < fuel)%nat ->
  exists c', recv_loop fuel bs c = (Err EIO, c').
Proof.
  induction 1 as [s p w Hp Hw|s p w seqs p' w' Hp Hw Hm IH]; intros fuel bs c rest Hd Hr Hf;
    (destruct fuel as [|fuel]; [lia|]).
  - apply (recv_packet_short fuel bs c s p w Hw).
    + rewrite Hd, app_length. destruct rest; [congruence|cbn [length]; lia].
    + eauto.
  - destruct (Nat.ltb_spec (length (delivered (c_rd c))) (length w)) as [L|L].
    + apply (recv_packet_short fuel bs c s p w Hw L). eapply packet_wire_app_short; eassumption.
    + assert (E : delivered (c_rd c) = w ++ skipn (length w) (delivered (c_rd c)) /\
                  w' = skipn (length w) (delivered (c_rd c)) ++ rest).
      { destruct (app_split _ _ _ _ Hd L) as (m & -> & ->).
        rewrite skipn_app, skipn_all, Nat.sub_diag. auto. }
      destruct E as [E1 E2].
      destruct (recv_packet fuel bs c s p w _ Hw E1) as (c' & E & D & P & S & L2).
      rewrite E. change full with max_payload in Hp.
      destruct (N.ltb_spec (N.of_nat (length p)) max_payload); [lia|].
      apply (IH fuel (bs ++ p) c' rest); [|assumption|lia]. rewrite D. exact E2.
Qed.

Lemma recv_msg_truncated seqs p w c rest : message_wire seqs p w -> w = delivered (c_rd c) ++ rest -> rest <> [] ->
  exists c', recv_msg c = (Err EIO, c').
Proof. intros Hm Hd Hr. unfold recv_msg. eapply recv_loop_short; [eassumption..|]. lia. Qed.

(** totality: recv_msg on arbitrary bytes is a message or an I/O error *)
Lemma recv_loop_total fuel : forall bs c, (sched_len (c_rd c) < fuel)%nat ->
  (exists seqs p w rest c', recv_loop fuel bs c = (Ok (bs ++ p), c') /\ message_wire seqs p w
     /\ delivered (c_rd c) = w ++ rest /\ delivered (c_rd c') = rest) \/
  (exists c', recv_loop fuel bs c = (Err EIO, c')).
Proof.
  induction fuel as [|fuel IH]; intros bs c Hf; [lia|].
  destruct (Nat.ltb_spec (length (delivered (c_rd c))) 4) as [L|L].
  { right. destruct (Nat.ltb_spec (length (delivered (c_rd c))) 3).
    - cbn [recv_loop]. destruct (io_read_exact_short c 3 ltac:(lia)) as (s' & E). rewrite (ibind_err _ _ _ _ _ E). eauto.
    - destruct (delivered (c_rd c)) as [|d0 [|d1 [|d2 [|]]]] eqn:Ed; cbn [length] in *; try lia.
      cbn [recv_loop].
      destruct (io_read_exact_ok c 3 [d0; d1; d2] [] eq_refl Ed) as (s1 & E1 & D1 & L1).
      rewrite (ibind_ok _ _ _ _ _ E1).
      destruct (io_read_exact_short (set_rd c s1) 1) as (s' & E); [cbn [c_rd set_rd]; rewrite D1; cbn; lia|].
      rewrite (ibind_err _ _ _ _ _ E). eauto. }
  destruct (delivered (c_rd c)) as [|d0 [|d1 [|d2 [|s d]]]] eqn:Ed; cbn [length] in *; try lia.
  set (n := le_val [d0; d1; d2]).
  assert (Hn : n < 2 ^ 24) by (exact (le_val_bound [d0; d1; d2])).
  destruct (N.ltb_spec (N.of_nat (length d)) n) as [S|S].
  - right.
    assert (W : packet_wire s (d ++ repeat x00 (N.to_nat n - length d)) ([d0; d1; d2] ++ s :: d ++ repeat x00 (N.to_nat n - length d))).
    { exists [d0; d1; d2]. split; [|reflexivity]. split; [reflexivity|]. fold n. rewrite app_length, repeat_length. lia. }
    eapply (recv_packet_short fuel bs c s _ _ W).
    + rewrite Ed. rewrite !app_length. cbn [length]. rewrite app_length, repeat_length. lia.
    + exists (repeat x00 (N.to_nat n - length d)). rewrite Ed. reflexivity.
  - set (p := firstn (N.to_nat n) d). set (rest := skipn (N.to_nat n) d).
    assert (Lp : length p = N.to_nat n) by (subst p; rewrite firstn_length; lia).
    assert (W : packet_wire s p ([d0; d1; d2] ++ s :: p)).
    { exists [d0; d1; d2]. split; [|reflexivity]. split; [reflexivity|]. fold n. lia. }
    assert (Hd : delivered (c_rd c) = ([d0; d1; d2] ++ s :: p) ++ rest).
    { rewrite Ed. cbn [app]. subst p rest. rewrite firstn_skipn. reflexivity. }
    destruct (recv_packet fuel bs c s p _ rest W Hd) as (c' & E & D & P & S' & L2).
    rewrite E. destruct (N.ltb_spec (N.of_nat (length p)) max_payload) as [M|M].
    + left. exists [s], p, ([d0; d1; d2] ++ s :: p), rest, c'. split; [reflexivity|].
      split; [constructor; assumption|]. split; [rewrite <- Ed; exact Hd|exact D].
    + destruct (IH (bs ++ p) c') as [(seqs & p' & w' & rest' & c2 & E2 & M2 & D2 & D3)|(c2 & E2)]; [lia| |].
      * left. exists (s :: seqs), (p ++ p'), (([d0; d1; d2] ++ s :: p) ++ w'), rest', c2.
        rewrite E2, app_assoc. split; [reflexivity|]. split.
        { constructor; try assumption. change full with max_payload. unfold max_payload in *. lia. }
        split; [|exact D3]. rewrite D in D2. rewrite <- Ed, Hd, D2, !app_assoc. reflexivity.
      * right. eauto.
Qed.

Lemma recv_msg_total c :
  (exists seqs p w rest c', recv_msg c = (Ok p, c') /\ message_wire seqs p w
     /\ delivered (c_rd c) = w ++ rest /\ delivered (c_rd c') = rest) \/
  (exists c', recv_msg c = (Err EIO, c')).
Proof. apply (recv_loop_total (S (sched_len (c_rd c))) [] c). lia. Qed.

(** ** writing *)
Lemma write_all_ok s : forall bs, accepting s ->
  exists s', write_all bs s = (Ok tt, bs, s') /\ accepting s'.
Proof.
  induction s as [|p s IH]; intros bs Ha.
  - exists []. destruct bs; cbn [write_all]; auto.
  - destruct bs as [|b bs]; [exists (p :: s); destruct p; auto|].
    destruct p as [|n|].
    + destruct (IH (b :: bs) Ha) as (s' & E & A). exists s'. auto.
    + destruct Ha as [Hn Ha]. destruct n as [|n]; [congruence|].
      destruct (IH (skipn (S n) (b :: bs)) Ha) as (s' & E & A). exists s'. cbn [write_all].
      rewrite E, firstn_skipn. auto.
    + destruct Ha.
Qed.

Lemma io_write_ok c bs : accepting (c_ws c) ->
  exists s', io_write_all bs c = (Ok tt, set_wr c s' (c_out c ++ bs)) /\ accepting s'.
Proof.
  intros H. destruct (write_all_ok _ bs H) as (s' & E & A). exists s'. unfold io_write_all. rewrite E. auto.
Qed.

Lemma hdr_is_le p : N.of_nat (length p) < 2 ^ 24 ->
  is_le 3 (N.of_nat (length p))
    [n2b (N.land (blen p) 0xff); n2b (N.land (N.shiftr (blen p) 8) 0xff); n2b (N.land (N.shiftr (blen p) 16) 0xff)].
Proof.
  intros H. split; [reflexivity|]. cbn [le_val]. fold (blen p) in *.
  change 0xff with (N.ones 8). rewrite !N.land_ones, !N.shiftr_div_pow2.
  fold (b2n (n2b (blen p mod 2 ^ 8))) (b2n (n2b (blen p / 2 ^ 8 mod 2 ^ 8))) (b2n (n2b (blen p / 2 ^ 16 mod 2 ^ 8))).
  rewrite !b2n_n2b. change (2 ^ 8) with 256. change (2 ^ 16) with 65536. change (2 ^ 24) with 16777216 in H.
  lia.
Qed.

Lemma send_packet_ok checks c p : accepting (c_ws c) -> N.of_nat (length p) < 2 ^ 24 ->
  c_pkt_nr c < 256 -> checks = false \/ c_pkt_nr c <> 255 ->
  exists w c', send_packet checks p c = (Ok tt, c') /\ packet_wire (n2b (c_pkt_nr c)) p w
    /\ c_out c' = c_out c ++ w /\ c_pkt_nr c' = (c_pkt_nr c + 1) mod 256 /\ accepting (c_ws c') /\ same_but_write c c'.
Proof.
  intros Ha Hl Hn Hc. unfold send_packet.
  match goal with |- context [io_write_all ?h] => set (hdr := h) end.
  destruct (io_write_ok c hdr Ha) as (s1 & E1 & A1). rewrite (ibind_ok _ _ _ _ _ E1).
  set (c1 := set_wr c s1 (c_out c ++ hdr)).
  destruct (io_write_ok c1 [n2b (c_pkt_nr c1)] A1) as (s2 & E2 & A2).
  rewrite (ibind_ok (fun c => io_write_all [n2b (c_pkt_nr c)] c) _ c1 _ _ E2).
  set (c2 := set_wr c1 s2 (c_out c1 ++ [n2b (c_pkt_nr c1)])).
  destruct (io_write_ok c2 p A2) as (s3 & E3 & A3). rewrite (ibind_ok _ _ _ _ _ E3).
  set (c3 := set_wr c2 s3 (c_out c2 ++ p)).
  exists (hdr ++ n2b (c_pkt_nr c) :: p), (set_pkt_nr c3 ((c_pkt_nr c + 1) mod 256)).
  split.
  { unfold inc_pkt_nr. change (c_pkt_nr c3) with (c_pkt_nr c).
    destruct (N.eqb_spec (c_pkt_nr c) 255) as [E|E].
    - destruct Hc as [->|Hc]; [|congruence]. rewrite E. reflexivity.
    - rewrite N.mod_small by lia. reflexivity. }
  split; [exists hdr; split; [apply hdr_is_le; assumption|reflexivity]|].
  split; [cbn; rewrite <- !app_assoc; reflexivity|]. split; [reflexivity|]. split; [exact A3|repeat split].
Qed.

Lemma send_packet_255 c p : accepting (c_ws c) -> c_pkt_nr c = 255 ->
  exists c', send_packet true p c = (Panic PArith, c').
Proof.
  intros Ha Hn. unfold send_packet.
  match goal with |- context [io_write_all ?h] => set (hdr := h) end.
  destruct (io_write_ok c hdr Ha) as (s1 & E1 & A1). rewrite (ibind_ok _ _ _ _ _ E1).
  set (c1 := set_wr c s1 (c_out c ++ hdr)).
  destruct (io_write_ok c1 [n2b (c_pkt_nr c1)] A1) as (s2 & E2 & A2).
  rewrite (ibind_ok (fun c => io_write_all [n2b (c_pkt_nr c)] c) _ c1 _ _ E2).
  set (c2 := set_wr c1 s2 (c_out c1 ++ [n2b (c_pkt_nr c1)])).
  destruct (io_write_ok c2 p A2) as (s3 & E3 & A3). rewrite (ibind_ok _ _ _ _ _ E3).
  unfold inc_pkt_nr. cbn [c_pkt_nr set_wr c2 c1]. rewrite Hn. cbn [N.eqb Pos.eqb]. eauto.
Qed.

Lemma send_loop_ok checks fuel : forall bs c, accepting (c_ws c) -> (length bs < fuel)%nat ->
  c_pkt_nr c < 256 -> checks = false \/ c_pkt_nr c + packet_count (blen bs) <= 255 ->
  exists seqs w c', send_loop checks fuel bs c = (Ok tt, c') /\ message_wire seqs bs w
    /\ c_out c' = c_out c ++ w /\ consecutive (c_pkt_nr c) seqs
    /\ N.of_nat (length seqs) = packet_count (blen bs)
    /\ c_pkt_nr c' = (c_pkt_nr c + packet_count (blen bs)) mod 256
    /\ accepting (c_ws c') /\ same_but_write c c'.
Proof.
  induction fuel as [|fuel IH]; intros bs c Ha Hf Hn Hc; [lia|]. cbn [send_loop].
  assert (M : max_payload = full) by reflexivity.
  assert (F : full = 16777215) by reflexivity.
  destruct (N.leb_spec max_payload (blen bs)) as [L|L].
  - set (p := firstn (N.to_nat max_payload) bs). set (r := skipn (N.to_nat max_payload) bs).
    assert (Lp : N.of_nat (length p) = full).
    { subst p. rewrite firstn_length. unfold blen in L. lia. }
    assert (Lr : blen bs = full + blen r).
    { subst r. unfold blen in *. rewrite skipn_length. lia. }
    assert (Pc : packet_count (blen bs) = 1 + packet_count (blen r)).
    { unfold packet_count. rewrite Lr, F. lia. }
    destruct (send_packet_ok checks c p Ha) as (w & c1 & E1 & W1 & O1 & N1 & A1 & S1).
    { rewrite Lp, F. reflexivity. }
    { exact Hn. }
    { destruct Hc as [Hc|Hc]; [left; exact Hc|right; lia]. }
    rewrite (ibind_ok _ _ _ _ _ E1).
    destruct (IH r c1 A1) as (seqs & w2 & c2 & E2 & W2 & O2 & Q2 & K2 & N2 & A2 & S2).
    { subst r. rewrite skipn_length. unfold blen in L. lia. }
    { rewrite N1. lia. }
    { destruct Hc as [Hc|Hc]; [left; exact Hc|right]. rewrite N1. rewrite N.mod_small by lia. lia. }
    exists (n2b (c_pkt_nr c) :: seqs), (w ++ w2), c2.
    split; [exact E2|]. split.
    { rewrite <- (firstn_skipn (N.to_nat max_payload) bs). constructor; assumption. }
    split; [rewrite O2, O1, app_assoc; reflexivity|].
    split.
    { cbn [consecutive]. split; [apply b2n_n2b|]. rewrite N1 in Q2.
      clear - Q2. revert Q2. generalize (c_pkt_nr c + 1). intros m.
      assert (G : forall a b, a mod 256 = b mod 256 -> consecutive a seqs -> consecutive b seqs).
      { clear. induction seqs as [|x seqs IH]; intros a b E; cbn [consecutive]; [tauto|].
        intros [H1 H2]. split; [congruence|]. apply (IH (a + 1)); [|exact H2]. lia. }
      apply G. rewrite N.mod_mod by discriminate. reflexivity. }
    split; [cbn [length]; lia|].
    split; [rewrite N2, N1, Pc; lia|].
    split; [exact A2|]. destruct S1 as (?&?&?), S2 as (?&?&?). repeat split; congruence.
  - assert (Pc : packet_count (blen bs) = 1).
    { unfold packet_count. rewrite N.div_small by lia. reflexivity. }
    destruct (send_packet_ok checks c bs Ha) as (w & c1 & E1 & W1 & O1 & N1 & A1 & S1).
    { unfold blen in L. change (2 ^ 24) with 16777216. lia. }
    { exact Hn. }
    { destruct Hc as [Hc|Hc]; [left; exact Hc|right; lia]. }
    exists [n2b (c_pkt_nr c)], w, c1. split; [exact E1|].
    split; [constructor; [unfold blen in L; lia|exact W1]|]. split; [exact O1|].
    split; [cbn [consecutive]; split; [apply b2n_n2b|exact I]|].
    split; [rewrite Pc; reflexivity|]. split; [rewrite Pc; exact N1|]. split; [exact A1|exact S1].
Qed.

Lemma send_msg_spec checks c msg (reset : bool) : accepting (c_ws c) ->
  let start := if reset then 0 else c_pkt_nr c in
  start < 256 -> checks = false \/ start + packet_count (blen msg) <= 255 ->
  exists seqs w c', send_msg checks msg reset c = (Ok tt, c') /\ message_wire seqs msg w
    /\ c_out c' = c_out c ++ w /\ consecutive start seqs
    /\ N.of_nat (length seqs) = packet_count (blen msg)
    /\ c_pkt_nr c' = (start + packet_count (blen msg)) mod 256
    /\ accepting (c_ws c') /\ same_but_write c c'.
Proof.
  intros Ha start Hs Hc. unfold send_msg.
  destruct reset; cbn iota in start.
  - unfold ibind at 1. cbn [reset_pkt_nr].
    destruct (send_loop_ok checks (S (length msg)) msg (set_pkt_nr c 0) Ha) as (seqs & w & c' & H); [lia|exact Hs|exact Hc|].
    exists seqs, w, c'. exact H.
  - unfold ibind at 1. cbn [iret].
    destruct (send_loop_ok checks (S (length msg)) msg c Ha) as (seqs & w & c' & H); [lia|exact Hs|exact Hc|].
    exists seqs, w, c'. exact H.
Qed.

Lemma send_msg_numbers c msg (reset : bool) : accepting (c_ws c) ->
  let start := if reset then 0 else c_pkt_nr c in
  start < 256 ->
  exists seqs w c', send_msg false msg reset c = (Ok tt, c') /\ message_wire seqs msg w
    /\ c_out c' = c_out c ++ w /\ consecutive start seqs
    /\ c_pkt_nr c' = (start + N.of_nat (length seqs)) mod 256.
Proof.
  intros Ha start Hs.
  destruct (send_msg_spec false c msg reset Ha Hs (or_introl eq_refl)) as (seqs & w & c' & E & W & O & Q & K & P & _).
  exists seqs, w, c'. rewrite K. auto.
Qed.

Lemma consecutive_last seqs : forall m, consecutive m seqs -> seqs <> [] ->
  next_seq (last seqs x00) = (m + N.of_nat (length seqs)) mod 256.
Proof.
  induction seqs as [|s seqs IH]; intros m; [congruence|]. intros [H1 H2] _.
  destruct seqs as [|s2 seqs].
  - cbn [last length]. unfold next_seq. rewrite H1. change (N.of_nat 1) with 1. lia.
  - change (last (s :: s2 :: seqs) x00) with (last (s2 :: seqs) x00).
    rewrite (IH (m + 1) H2) by discriminate. f_equal. cbn [length]. lia.
Qed.

(** send on one connection, receive on another *)
Lemma send_recv c msg (reset : bool) checks d :
  accepting (c_ws c) -> let start := if reset then 0 else c_pkt_nr c in
  start < 256 -> checks = false \/ start + packet_count (blen msg) <= 255 ->
  exists w c', send_msg checks msg reset c = (Ok tt, c') /\ c_out c' = c_out c ++ w /\
    forall rest, delivered (c_rd d) = w ++ rest ->
      exists d', recv_msg d = (Ok msg, d') /\ delivered (c_rd d') = rest /\
                 c_pkt_nr d' = c_pkt_nr c'.
Proof.
  intros Ha start Hs Hc.
  destruct (send_msg_spec checks c msg reset Ha Hs Hc) as (seqs & w & c' & E & W & O & Q & K & P & _).
  exists w, c'. split; [exact E|]. split; [exact O|]. intros rest Hd.
  destruct (recv_msg_spec _ _ _ d rest W Hd) as (d' & E' & D' & P' & _).
  exists d'. split; [exact E'|]. split; [exact D'|]. rewrite P', P. fold start in Q.
  rewrite <- K. apply consecutive_last; [exact Q|]. destruct W; discriminate.
Qed.

Lemma recv_many ps ws : messages_wire ps ws -> forall c rest, delivered (c_rd c) = ws ++ rest ->
  exists c', recv_n (length ps) c = (Ok ps, c') /\ delivered (c_rd c') = rest.
Proof.
  induction 1 as [|p w ps ws seqs Hm Hs IH]; intros c rest Hd.
  - exists c. split; [reflexivity|exact Hd].
  - rewrite <- app_assoc in Hd. destruct (recv_msg_spec _ _ _ c _ Hm Hd) as (c1 & E1 & D1 & _).
    destruct (IH c1 rest D1) as (c2 & E2 & D2). exists c2. split; [|exact D2].
    cbn [length recv_n]. rewrite (ibind_ok _ _ _ _ _ E1), (ibind_ok _ _ _ _ _ E2). reflexivity.
Qed.

Lemma multiple_ends_empty k : forall seqs p w, message_wire seqs p w ->
  N.of_nat (length p) = k * full -> exists pre, w = pre ++ [x00; x00; x00; last seqs x00].
Proof.
  intros seqs p w H. revert k. induction H as [s p w Hp (l & [L V] & ->)|s p w seqs p' w' Hp Hw Hm IH]; intros k Hk.
  - assert (E : N.of_nat (length p) = 0).
    { assert (F : full = 16777215) by reflexivity. rewrite F in *. nia. }
    destruct p; [|cbn [length] in E; lia]. exists []. cbn [app].
    cbn [length] in V. rewrite <- (to_le_bytes_le_val l), L, V. reflexivity.
  - rewrite app_length in Hk.
    assert (F : full = 16777215) by reflexivity.
    destruct (IH (k - 1)) as (pre & ->); [rewrite F in *; nia|].
    exists (w ++ pre). rewrite <- app_assoc. do 6 f_equal. destruct Hm; reflexivity.
Qed.
