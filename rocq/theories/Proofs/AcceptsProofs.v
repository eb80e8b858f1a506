(** * Decoders take exactly the bytes of their layout: proofs *)
From Coq Require Import Lia.
From Verif Require Import Model.Base Model.BytesParser Model.LenEnc Model.Utf8 Model.Flags Model.Packet Model.Cmd Model.Time Model.Bitmap
  Model.Col Model.Row Model.Stmt Model.Event Model.EventBody Model.Rows Model.Session
  Spec.Nums Spec.LenEncSpec Spec.Wire Spec.Packets Spec.BitmapSpec Spec.Values Spec.Accepts
  Proofs.BaseLemmas Proofs.BytesParserProofs Proofs.LenEncProofs Proofs.PacketProofs.
Open Scope N_scope.

(** ** Composition *)
Lemma te_iff {A} (p : parser A) (E F : A -> bytes -> Prop) :
  (forall v w, E v w <-> F v w) -> takes_exactly p E -> takes_exactly p F.
Proof.
  intros H P bs v rest. rewrite (P bs v rest). split; intros (w & E1 & E2); exists w; (split; [exact E1|apply H; exact E2]).
Qed.
Lemma te_ret {A} (a : A) E : (forall v w, E v w <-> v = a /\ w = []) -> takes_exactly (pret a) E.
Proof.
  intros H bs v rest. split.
  - intros [= <- <-]. exists []. split; [reflexivity|]. apply H. auto.
  - intros (w & -> & X). apply H in X. destruct X as [-> ->]. reflexivity.
Qed.
Lemma te_fail {A} (p : parser A) E : (forall bs v rest, p bs <> (Ok v, rest)) -> (forall v w, ~ E v w) -> takes_exactly p E.
Proof. intros N H bs v rest. split; [intros X; destruct (N _ _ _ X)|intros (w & _ & X); destruct (H _ _ X)]. Qed.
Lemma te_bind {A B} (p : parser A) (f : A -> parser B) E F G :
  takes_exactly p E -> (forall a w, E a w -> takes_exactly (f a) (F a)) ->
  (forall v w, G v w <-> exists a w1 w2, w = w1 ++ w2 /\ E a w1 /\ F a v w2) ->
  takes_exactly (pbind p f) G.
Proof.
  intros P Q H bs v rest. split.
  - intros X. apply pbind_inv in X. destruct X as (a & mid & X & Y). apply P in X. destruct X as (w1 & -> & X). apply (Q _ _ X) in Y. destruct Y as (w2 & -> & Y). exists (w1 ++ w2). split; [apply app_assoc|]. apply H. exists a, w1, w2. auto.
  - intros (w & -> & X). apply H in X. destruct X as (a & w1 & w2 & -> & X & Y). rewrite <- app_assoc.
    rewrite (pbind_ok _ _ _ a (w2 ++ rest)); [|apply P; exists w1; auto]. apply (Q _ _ X). exists w2. auto.
Qed.
Lemma te_map {A B} (g : A -> B) (p : parser A) E F :
  takes_exactly p E -> (forall v w, F v w <-> exists a, v = g a /\ E a w) -> takes_exactly (pmap g p) F.
Proof.
  intros P H. unfold pmap. apply (te_bind _ _ E (fun a v w => v = g a /\ w = [])); [exact P|intros a w _; apply te_ret; reflexivity|].
  intros v w. rewrite H. split.
  - intros (a & -> & X). exists a, w, []. rewrite app_nil_r. auto.
  - intros (a & w1 & w2 & -> & X & -> & ->). exists a. rewrite app_nil_r. auto.
Qed.
Lemma te_lift {A B} (x : res A) (f : A -> parser B) E :
  (forall a, x = Ok a -> takes_exactly (f a) E) -> ((forall a, x <> Ok a) -> forall v w, ~ E v w) ->
  takes_exactly (pbind (plift x) f) E.
Proof.
  intros P N. destruct x as [a|e|w|]; [intros bs v rest; exact (P a eq_refl bs v rest)|..];
    (apply te_fail; [intros bs v rest; discriminate|apply N; discriminate]).
Qed.

Lemma fields_cons_inv f fs w : fields (f :: fs) w <-> exists w1 w2, w = w1 ++ w2 /\ f w1 /\ fields fs w2.
Proof.
  split; [intros H; inversion H; subst; eauto 6|]. intros (w1 & w2 & -> & H1 & H2). constructor; assumption.
Qed.
Lemma fields_nil_inv w : fields [] w <-> w = [].
Proof. split; [intros H; inversion H; reflexivity|intros ->; constructor]. Qed.
Lemma fields_one f w : fields [f] w <-> f w.
Proof.
  rewrite fields_cons_inv. split.
  - intros (w1 & w2 & -> & H1 & H2). apply fields_nil_inv in H2. subst. rewrite app_nil_r. exact H1.
  - intros H. exists w, []. rewrite app_nil_r, fields_nil_inv. auto.
Qed.
Lemma fields_app fs gs w : fields (fs ++ gs) w <-> exists w1 w2, w = w1 ++ w2 /\ fields fs w1 /\ fields gs w2.
Proof.
  revert w. induction fs as [|f fs IH]; intros w; cbn [app].
  - split; [intros H; exists [], w; auto using no_field|]. intros (w1 & w2 & -> & H1 & H2). apply fields_nil_inv in H1. subst. exact H2.
  - rewrite fields_cons_inv. split.
    + intros (w1 & w2 & -> & H1 & H2). apply IH in H2. destruct H2 as (w3 & w4 & -> & H2 & H3).
      exists (w1 ++ w3), w4. rewrite app_assoc. split; [reflexivity|]. split; [constructor; assumption|exact H3].
    + intros (w1 & w2 & -> & H1 & H2). apply fields_cons_inv in H1. destruct H1 as (w3 & w4 & -> & H1 & H3).
      exists w3, (w4 ++ w2). rewrite app_assoc. split; [reflexivity|]. split; [exact H1|]. apply IH. eauto.
Qed.

Lemma te_true {A} (p : parser A) E : takes_exactly p (fun v w => True /\ E v w) -> takes_exactly p E.
Proof. apply te_iff. tauto. Qed.
(** one field whose value is part [g] of the result *)
Lemma te_field {A B} (p : parser A) (E : A -> bytes -> Prop) (f : A -> parser B) (g : B -> A) (C : B -> Prop) F :
  takes_exactly p E -> (forall a, takes_exactly (f a) (fun v w => (C v /\ g v = a) /\ fields (F v) w)) ->
  takes_exactly (pbind p f) (fun v w => C v /\ fields (E (g v) :: F v) w).
Proof.
  intros P Q. eapply te_bind; [exact P|intros a w _; exact (Q a)|]. intros v w. cbv beta. split.
  - intros (c & H). apply fields_cons_inv in H. destruct H as (w1 & w2 & -> & H1 & H2). exists (g v), w1, w2. auto.
  - intros (a & w1 & w2 & -> & H1 & ((c & <-) & H2)). split; [exact c|constructor; assumption].
Qed.
Lemma te_field_if {A B} (p : parser A) (K : A -> Prop) (E : A -> bytes -> Prop) (f : A -> parser B) (g : B -> A) (C : B -> Prop) F :
  takes_exactly p (fun a w => K a /\ E a w) -> (forall v, C v -> K (g v)) ->
  (forall a, K a -> takes_exactly (f a) (fun v w => (C v /\ g v = a) /\ fields (F v) w)) ->
  takes_exactly (pbind p f) (fun v w => C v /\ fields (E (g v) :: F v) w).
Proof.
  intros P HK Q. eapply te_bind; [exact P|intros a w [X _]; exact (Q a X)|]. intros v w. cbv beta. split.
  - intros (c & H). apply fields_cons_inv in H. destruct H as (w1 & w2 & -> & H1 & H2). exists (g v), w1, w2. auto 6.
  - intros (a & w1 & w2 & -> & (k & H1) & ((c & <-) & H2)). split; [exact c|constructor; assumption].
Qed.
(** one field nobody looks at *)
Lemma te_skip {A B} (p : parser A) (E : A -> bytes -> Prop) (f : A -> parser B) (C : B -> Prop) (P : bytes -> Prop) F :
  takes_exactly p E -> (forall w, P w <-> exists a, E a w) ->
  (forall a, takes_exactly (f a) (fun v w => C v /\ fields (F v) w)) ->
  takes_exactly (pbind p f) (fun v w => C v /\ fields (P :: F v) w).
Proof.
  intros H HP Q. eapply te_bind; [exact H|intros a w _; exact (Q a)|]. intros v w. cbv beta. split.
  - intros (c & X). apply fields_cons_inv in X. destruct X as (w1 & w2 & -> & H1 & H2). apply HP in H1.
    destruct H1 as [a H1]. exists a, w1, w2. auto.
  - intros (a & w1 & w2 & -> & H1 & (c & H2)). split; [exact c|]. constructor; [apply HP; eauto|exact H2].
Qed.
Lemma te_done {A} (a : A) (C : A -> Prop) : (forall v, C v <-> v = a) -> takes_exactly (pret a) (fun v w => C v /\ fields [] w).
Proof. intros H. apply te_ret. intros v w. rewrite H, fields_nil_inv. reflexivity. Qed.
Lemma te_nofield {A} (p : parser A) C (F : A -> list (bytes -> Prop)) :
  takes_exactly p (fun v w => C v /\ fields (F v) w) -> takes_exactly p (fun v w => C v /\ fields (exactly [] :: F v) w).
Proof.
  apply te_iff. intros v w. rewrite fields_cons_inv. split.
  - intros (c & H). split; [exact c|]. exists [], w. repeat split. exact H.
  - intros (c & w1 & w2 & -> & H1 & H2). red in H1. subst. auto.
Qed.

(** the same for whole messages *)
Lemma tm_of {A} (p : parser A) E : takes_exactly p E -> takes_message p (fun v w => fields [E v; leftover] w).
Proof.
  intros P msg v. rewrite fields_cons_inv. split.
  - intros H. destruct (p msg) as [r rest] eqn:X. cbn in H. subst r. apply P in X. destruct X as (w & -> & X).
    exists w, rest. split; [reflexivity|]. split; [exact X|]. apply fields_one. exact I.
  - intros (w1 & w2 & -> & H1 & _). assert (X : p (w1 ++ w2) = (Ok v, w2)) by (apply P; eauto). rewrite X. reflexivity.
Qed.
Lemma tm_iff {A} (p : parser A) (E F : A -> bytes -> Prop) :
  (forall v w, E v w <-> F v w) -> takes_message p E -> takes_message p F.
Proof. intros H P msg v. rewrite (P msg v). apply H. Qed.
Lemma tm_bind {A B} (p : parser A) (f : A -> parser B) E F G :
  takes_exactly p E -> (forall a w, E a w -> takes_message (f a) (F a)) ->
  (forall v w, G v w <-> exists a w1 w2, w = w1 ++ w2 /\ E a w1 /\ F a v w2) ->
  takes_message (pbind p f) G.
Proof.
  intros P Q H msg v. rewrite H. split.
  - intros X. destruct (pbind p f msg) as [r rest] eqn:Y. cbn in X. subst r. apply pbind_inv in Y.
    destruct Y as (a & mid & X & Y). apply P in X. destruct X as (w1 & -> & X). exists a, w1, mid. split; [reflexivity|].
    split; [exact X|]. apply (Q _ _ X). rewrite Y. reflexivity.
  - intros (a & w1 & w2 & -> & X & Y). rewrite (pbind_ok _ _ _ a w2); [|apply P; exists w1; auto]. apply (Q _ _ X). exact Y.
Qed.
Lemma tm_true {A} (p : parser A) E : takes_message p (fun v w => True /\ E v w) -> takes_message p E.
Proof. apply tm_iff. tauto. Qed.
Lemma tm_lift {A B} (x : res A) (f : A -> parser B) E :
  (forall a, x = Ok a -> takes_message (f a) E) -> ((forall a, x <> Ok a) -> forall v w, ~ E v w) ->
  takes_message (pbind (plift x) f) E.
Proof.
  intros P N. destruct x as [a|e|w|]; [intros msg v; exact (P a eq_refl msg v)|..];
    (intros msg v; split; [discriminate|intros X; destruct (N ltac:(discriminate) _ _ X)]).
Qed.
Lemma tm_fail {A} (p : parser A) E : (forall bs v, fst (p bs) <> Ok v) -> (forall v w, ~ E v w) -> takes_message p E.
Proof. intros N H bs v. split; [intros X; destruct (N _ _ X)|intros X; destruct (H _ _ X)]. Qed.
Lemma tm_field {A B} (p : parser A) (E : A -> bytes -> Prop) (f : A -> parser B) (g : B -> A) (C : B -> Prop) F :
  takes_exactly p E -> (forall a, takes_message (f a) (fun v w => (C v /\ g v = a) /\ fields (F v) w)) ->
  takes_message (pbind p f) (fun v w => C v /\ fields (E (g v) :: F v) w).
Proof.
  intros P Q. eapply tm_bind; [exact P|intros a w _; exact (Q a)|]. intros v w. cbv beta. split.
  - intros (c & H). apply fields_cons_inv in H. destruct H as (w1 & w2 & -> & H1 & H2). exists (g v), w1, w2. auto.
  - intros (a & w1 & w2 & -> & H1 & ((c & <-) & H2)). split; [exact c|constructor; assumption].
Qed.
Lemma tm_field_if {A B} (p : parser A) (K : A -> Prop) (E : A -> bytes -> Prop) (f : A -> parser B) (g : B -> A) (C : B -> Prop) F :
  takes_exactly p (fun a w => K a /\ E a w) -> (forall v, C v -> K (g v)) ->
  (forall a, K a -> takes_message (f a) (fun v w => (C v /\ g v = a) /\ fields (F v) w)) ->
  takes_message (pbind p f) (fun v w => C v /\ fields (E (g v) :: F v) w).
Proof.
  intros P HK Q. eapply tm_bind; [exact P|intros a w [X _]; exact (Q a X)|]. intros v w. cbv beta. split.
  - intros (c & H). apply fields_cons_inv in H. destruct H as (w1 & w2 & -> & H1 & H2). exists (g v), w1, w2. auto 6.
  - intros (a & w1 & w2 & -> & (k & H1) & ((c & <-) & H2)). split; [exact c|constructor; assumption].
Qed.
Lemma tm_skip {A B} (p : parser A) (E : A -> bytes -> Prop) (f : A -> parser B) (C : B -> Prop) (P : bytes -> Prop) F :
  takes_exactly p E -> (forall w, P w <-> exists a, E a w) ->
  (forall a, takes_message (f a) (fun v w => C v /\ fields (F v) w)) ->
  takes_message (pbind p f) (fun v w => C v /\ fields (P :: F v) w).
Proof.
  intros H HP Q. eapply tm_bind; [exact H|intros a w _; exact (Q a)|]. intros v w. cbv beta. split.
  - intros (c & X). apply fields_cons_inv in X. destruct X as (w1 & w2 & -> & H1 & H2). apply HP in H1.
    destruct H1 as [a H1]. exists a, w1, w2. auto.
  - intros (a & w1 & w2 & -> & H1 & (c & H2)). split; [exact c|]. constructor; [apply HP; eauto|exact H2].
Qed.
Lemma tm_nofield {A} (p : parser A) C (F : A -> list (bytes -> Prop)) :
  takes_message p (fun v w => C v /\ fields (F v) w) -> takes_message p (fun v w => C v /\ fields (exactly [] :: F v) w).
Proof.
  apply tm_iff. intros v w. rewrite fields_cons_inv. split.
  - intros (c & H). split; [exact c|]. exists [], w. repeat split. exact H.
  - intros (c & w1 & w2 & -> & H1 & H2). red in H1. subst. auto.
Qed.
Lemma tm_done {A} (a : A) (C : A -> Prop) : (forall v, C v <-> v = a) -> takes_message (pret a) (fun v w => C v /\ fields [leftover] w).
Proof.
  intros H msg v. rewrite H, fields_one. cbn [pret fst]. split; [intros [= ->]; split; [reflexivity|exact I]|intros [-> _]; reflexivity].
Qed.
Lemma tm_rest {B} (f : bytes -> parser B) (g : B -> bytes) (C : B -> Prop) :
  (forall s v, fst (f s []) = Ok v <-> C v /\ g v = s) ->
  takes_message (pbind read_rest f) (fun v w => C v /\ fields [exactly (g v)] w).
Proof.
  intros Q msg v. rewrite fields_one. change (pbind read_rest f msg) with (f msg []). rewrite (Q msg v). unfold exactly.
  split; intros (c & E); split; auto.
Qed.

Lemma te_ext {A} (p q : parser A) E : (forall bs, p bs = q bs) -> takes_exactly q E -> takes_exactly p E.
Proof. intros H Q bs v rest. rewrite H. apply Q. Qed.
Lemma tm_ext {A} (p q : parser A) E : (forall bs, p bs = q bs) -> takes_message q E -> takes_message p E.
Proof. intros H Q bs v. rewrite H. apply Q. Qed.
(** a layout that depends on what is known already *)
Lemma te_subst {A} (p : parser A) (C : A -> Prop) F F' : (forall v, C v -> F v = F' v) ->
  takes_exactly p (fun v w => C v /\ fields (F v) w) -> takes_exactly p (fun v w => C v /\ fields (F' v) w).
Proof. intros H. apply te_iff. intros v w. split; intros [c X]; (split; [exact c|]); [rewrite <- (H v c)|rewrite (H v c)]; exact X. Qed.
Lemma tm_subst {A} (p : parser A) (C : A -> Prop) F F' : (forall v, C v -> F v = F' v) ->
  takes_message p (fun v w => C v /\ fields (F v) w) -> takes_message p (fun v w => C v /\ fields (F' v) w).
Proof. intros H. apply tm_iff. intros v w. split; intros [c X]; (split; [exact c|]); [rewrite <- (H v c)|rewrite (H v c)]; exact X. Qed.
Lemma te_cond {A} (p : parser A) (C C' : A -> Prop) F : (forall v, C v <-> C' v) ->
  takes_exactly p (fun v w => C v /\ fields (F v) w) -> takes_exactly p (fun v w => C' v /\ fields (F v) w).
Proof. intros H. apply te_iff. intros v w. rewrite H. reflexivity. Qed.
Lemma tm_cond {A} (p : parser A) (C C' : A -> Prop) F : (forall v, C v <-> C' v) ->
  takes_message p (fun v w => C v /\ fields (F v) w) -> takes_message p (fun v w => C' v /\ fields (F v) w).
Proof. intros H. apply tm_iff. intros v w. rewrite H. reflexivity. Qed.

(** ** Primitive readers *)
Lemma te_take k : takes_exactly (take k) (fun s w => length s = k /\ w = s).
Proof.
  intros bs v rest. split; [intros H; apply take_inv in H; destruct H as [-> H]; eauto|].
  intros (w & -> & H & ->). apply take_app. exact H.
Qed.
Lemma te_get_le k : takes_exactly (pmap get_le (take k)) (is_le k).
Proof.
  eapply te_map; [apply te_take|]. intros n w. cbv beta. unfold is_le. split.
  - intros [H1 <-]. exists w. split; [symmetry; apply get_le_val|auto].
  - intros (s & -> & H & ->). split; [exact H|symmetry; apply get_le_val].
Qed.
Lemma te_u16 : takes_exactly read_le_u16 (is_le 2). Proof. apply te_get_le. Qed.
Lemma te_u32 : takes_exactly read_le_u32 (is_le 4). Proof. apply te_get_le. Qed.
Lemma te_u64 : takes_exactly read_le_u64 (is_le 8). Proof. apply te_get_le. Qed.
Lemma te_u128 : takes_exactly read_le_u128 (is_le 16). Proof. apply te_get_le. Qed.
Lemma te_f32 : takes_exactly read_le_f32 (is_le 4). Proof. apply te_get_le. Qed.
Lemma te_f64 : takes_exactly read_le_f64 (is_le 8).
Proof.
  intros bs v rest. rewrite <- (te_get_le 8 bs v rest). unfold read_le_f64.
  destruct (Nat.ltb_spec (length bs) 8) as [H|H]; [|reflexivity].
  split.
  - destruct (csub 4 (blen bs)); discriminate.
  - intros X. apply te_get_le in X. destruct X as (w & -> & X & _). rewrite app_length in H. lia.
Qed.
Lemma le_val_3 a b c : le_val [a; b; c] = b2n a + N.shiftl (b2n b) 8 + N.shiftl (b2n c) 16.
Proof. rewrite <- get_le_val. unfold get_le. cbn [fold_right]. rewrite !N.shiftl_mul_pow2. lia. Qed.
Lemma te_u24 : takes_exactly read_le_u24 (is_le 3).
Proof.
  eapply te_map; [apply te_take|]. intros n w. cbv beta. unfold is_le. split.
  - intros [H1 <-]. exists w. split; [|auto]. destruct (list_len3 _ H1) as (a & b & c & ->). apply le_val_3.
  - intros (s & -> & H & ->). split; [exact H|]. destruct (list_len3 _ H) as (a & b & c & ->). apply le_val_3.
Qed.
Lemma le_val_6 a b c d e f : le_val [a; b; c; d; e; f] =
  b2n a + N.shiftl (b2n b) 8 + N.shiftl (b2n c) 16 + N.shiftl (b2n d) 24 + N.shiftl (b2n e) 32 + N.shiftl (b2n f) 40.
Proof. rewrite <- get_le_val. unfold get_le. cbn [fold_right]. rewrite !N.shiftl_mul_pow2. lia. Qed.
Lemma te_u48 : takes_exactly read_le_u48 (is_le 6).
Proof.
  eapply te_map; [apply te_take|]. intros n w. cbv beta. unfold is_le. split.
  - intros [H1 <-]. exists w. split; [|auto]. destruct (list_len6 _ H1) as (a & b & c & d & e & f & ->). apply le_val_6.
  - intros (s & -> & H & ->). split; [exact H|]. destruct (list_len6 _ H) as (a & b & c & d & e & f & ->). apply le_val_6.
Qed.
Lemma byte1_eq n w : byte1 n w <-> exists b, w = [b] /\ n = b2n b.
Proof.
  unfold byte1, is_le. split.
  - intros [H <-]. destruct w as [|b [|]]; try discriminate. exists b. split; [reflexivity|]. cbn [le_val]. unfold b2n. lia.
  - intros (b & -> & ->). split; [reflexivity|]. cbn [le_val]. unfold b2n. lia.
Qed.
Lemma te_u8 : takes_exactly read_u8 byte1.
Proof.
  intros bs v rest. split.
  - destruct bs as [|b bs]; [discriminate|]. intros [= <- <-]. exists [b]. split; [reflexivity|]. apply byte1_eq. eauto.
  - intros (w & -> & H). apply byte1_eq in H. destruct H as (b & -> & ->). reflexivity.
Qed.
Lemma te_byte : takes_exactly read_byte (fun b w => w = [b]).
Proof.
  intros bs v rest. split.
  - destruct bs as [|b bs]; [discriminate|]. intros [= <- <-]. exists [b]. split; reflexivity.
  - intros (w & -> & ->). reflexivity.
Qed.
Lemma te_len n : takes_exactly (read_len n) (fun s w => N.of_nat (length s) = n /\ exactly s w).
Proof.
  intros bs v rest. split; [intros H; apply read_len_inv in H; destruct H as [-> H]; exists v; repeat split; exact H|].
  intros (w & -> & H & ->). apply read_len_app. exact H.
Qed.
Lemma te_until : takes_exactly (read_until x00 false) cstring.
Proof.
  intros bs v rest. split.
  - intros H. apply read_until_inv in H. destruct H as (a & H & -> & ->). exists (a ++ [x00]). rewrite <- app_assoc. repeat split. exact H.
  - intros (w & -> & H & ->). rewrite <- app_assoc. apply read_until_excl. exact H.
Qed.
(** [k] bytes nobody looks at *)
Lemma any_len k w : any k w <-> exists s : bytes, N.of_nat (length s) = N.of_nat k /\ exactly s w.
Proof. unfold any, exactly. split; [intros <-; exists w; auto|]. intros (s & H & ->). lia. Qed.
Lemma any1_u8 w : any 1 w <-> exists n, byte1 n w.
Proof.
  unfold any. split; [intros H|intros (n & [H _]); exact H]. destruct w as [|b [|]]; try discriminate.
  exists (b2n b). apply byte1_eq. eauto.
Qed.

(** length encoded *)
Lemma te_lei : takes_exactly read_len_enc_int lei_layout.
Proof.
  intros bs v rest. split.
  - destruct bs as [|b bs]; [discriminate|]. unfold read_len_enc_int. cbn [read_u8 pbind].
    destruct (N.eqb_spec (b2n b) 0xfb) as [E|E1]; [intros [= <- <-]; exists [b]; split; [reflexivity|]; cbn; f_equal; apply b2n_inj; exact E|].
    destruct (N.eqb_spec (b2n b) 0xfc) as [E|E2];
      [intros H; apply pmap_inv in H; destruct H as (n & H & <-); apply te_u16 in H; destruct H as (w & -> & H);
       exists ([b] ++ w); split; [reflexivity|]; cbn [lei_layout]; constructor; [red; f_equal; apply b2n_inj; exact E|apply fields_one; exact H]|].
    destruct (N.eqb_spec (b2n b) 0xfd) as [E|E3];
      [intros H; apply pmap_inv in H; destruct H as (n & H & <-); apply te_u24 in H; destruct H as (w & -> & H);
       exists ([b] ++ w); split; [reflexivity|]; cbn [lei_layout]; constructor; [red; f_equal; apply b2n_inj; exact E|apply fields_one; exact H]|].
    destruct (N.eqb_spec (b2n b) 0xfe) as [E|E4];
      [intros H; apply pmap_inv in H; destruct H as (n & H & <-); apply te_u64 in H; destruct H as (w & -> & H);
       exists ([b] ++ w); split; [reflexivity|]; cbn [lei_layout]; constructor; [red; f_equal; apply b2n_inj; exact E|apply fields_one; exact H]|].
    destruct (N.eqb_spec (b2n b) 0xff) as [E|E5]; [intros [= <- <-]; exists [b]; split; [reflexivity|]; cbn; f_equal; apply b2n_inj; exact E|].
    intros [= <- <-]. exists [b]. split; [reflexivity|]. split; [pose proof (b2n_lt b); lia|apply byte1_eq; eauto].
  - intros (w & -> & H). destruct v as [| |n|n|n|n]; cbn [lei_layout] in H.
    + subst. reflexivity.
    + subst. reflexivity.
    + destruct H as [L H]. apply byte1_eq in H. destruct H as (b & -> & ->). apply read_lei_small. exact L.
    + apply fields_cons_inv in H. destruct H as (w1 & w2 & -> & -> & H). rewrite fields_one in H.
      assert (X : read_le_u16 (w2 ++ rest) = (Ok n, rest)) by (apply te_u16; exists w2; split; [reflexivity|exact H]).
      cbn [app]. unfold read_len_enc_int. cbn [pbind read_u8]. change (b2n xfc) with 0xfc. cbn [N.eqb Pos.eqb]. apply pmap_ok. exact X.
    + apply fields_cons_inv in H. destruct H as (w1 & w2 & -> & -> & H). rewrite fields_one in H.
      assert (X : read_le_u24 (w2 ++ rest) = (Ok n, rest)) by (apply te_u24; exists w2; split; [reflexivity|exact H]).
      cbn [app]. unfold read_len_enc_int. cbn [pbind read_u8]. change (b2n xfd) with 0xfd. cbn [N.eqb Pos.eqb]. apply pmap_ok. exact X.
    + apply fields_cons_inv in H. destruct H as (w1 & w2 & -> & -> & H). rewrite fields_one in H.
      assert (X : read_le_u64 (w2 ++ rest) = (Ok n, rest)) by (apply te_u64; exists w2; split; [reflexivity|exact H]).
      cbn [app]. unfold read_len_enc_int. cbn [pbind read_u8]. change (b2n xfe) with 0xfe. cbn [N.eqb Pos.eqb]. apply pmap_ok. exact X.
Qed.
Lemma lei_any l n w : lei_layout l w -> lei_to_u64 l = Some n -> lenenc_any n w.
Proof.
  destruct l; cbn [lei_layout lei_to_u64]; intros H [= <-].
  - destruct H as [L H]. apply byte1_eq in H. destruct H as (b & -> & ->). constructor; [exact L|reflexivity].
  - apply fields_cons_inv in H. destruct H as (w1 & w2 & -> & -> & H). rewrite fields_one in H. apply any3. exact H.
  - apply fields_cons_inv in H. destruct H as (w1 & w2 & -> & -> & H). rewrite fields_one in H. apply any4. exact H.
  - apply fields_cons_inv in H. destruct H as (w1 & w2 & -> & -> & H). rewrite fields_one in H. apply any9. exact H.
Qed.
Lemma any_lei n w : lenenc_any n w <-> exists l, lei_layout l w /\ lei_to_u64 l = Some n.
Proof.
  split; [|intros (l & H1 & H2); eapply lei_any; eassumption].
  intros [m b|m s|m s|m s]; [exists (Len1 m)|exists (Len3 m)|exists (Len4 m)|exists (Len9 m)]; (split; [|reflexivity]); cbn [lei_layout].
  - split; [assumption|]. apply byte1_eq. exists b. split; [reflexivity|]. unfold b2n. congruence.
  - apply (one_more (exactly [xfc]) _ [xfc] s); [reflexivity|apply fields_one; assumption].
  - apply (one_more (exactly [xfd]) _ [xfd] s); [reflexivity|apply fields_one; assumption].
  - apply (one_more (exactly [xfe]) _ [xfe] s); [reflexivity|apply fields_one; assumption].
Qed.
Lemma te_lei_u64 : takes_exactly read_lei_u64 lenenc_any.
Proof.
  unfold read_lei_u64. eapply te_bind; [apply te_lei| |].
  - intros l w0 _. instantiate (1 := fun l n w => lei_to_u64 l = Some n /\ w = []). cbv beta.
    destruct (lei_to_u64 l) as [n|]; [apply te_ret; intros v w; split; intros [H ->]; split; congruence|].
    apply te_fail; [discriminate|intros v w [H _]; discriminate].
  - intros n w. rewrite any_lei. split.
    + intros (l & H1 & H2). exists l, w, []. rewrite app_nil_r. auto.
    + intros (l & w1 & w2 & -> & H1 & H2 & ->). rewrite app_nil_r. eauto.
Qed.
Lemma any_lenenc_lei w : any_lenenc w <-> exists l, lei_layout l w.
Proof.
  unfold any_lenenc. split.
  - intros [(n & H)|[->| ->]]; [apply any_lei in H; destruct H as (l & H & _); eauto|exists LeiNull; reflexivity|exists LeiErr; reflexivity].
  - intros (l & H). destruct (lei_to_u64 l) as [n|] eqn:E; [left; exists n; apply any_lei; eauto|].
    destruct l; try discriminate; auto.
Qed.
Lemma te_les : takes_exactly read_len_enc_str les_layout.
Proof.
  unfold read_len_enc_str.
  eapply te_bind with (F := fun l s w => match lei_to_u64 l with
    | Some n => exists bs, s = LesBytes bs /\ N.of_nat (length bs) = n /\ w = bs
    | None => w = [] /\ s = match l with LeiErr => LesErr | _ => LesNull end end); [apply te_lei| |].
  - intros l w0 _. assert (X : forall n, takes_exactly (pmap LesBytes (read_len n)) (fun s w => exists bs, s = LesBytes bs /\ N.of_nat (length bs) = n /\ w = bs)).
    { intros n. eapply te_map; [apply te_len|]. intros v w. cbv beta. split; intros (bs & -> & H & ->); exists bs; (split; [reflexivity|split; [exact H|reflexivity]]). }
    destruct l; cbn [lei_to_u64]; try apply X; apply te_ret; intros v w; tauto.
  - intros s w. split.
    + destruct s as [| |bs]; cbn [les_layout].
      * intros ->. exists LeiNull, [xfb], []. repeat split.
      * intros ->. exists LeiErr, [xff], []. repeat split.
      * intros (l & H & ->). apply any_lei in H. destruct H as (i & H1 & H2). exists i, l, bs. rewrite H2. eauto 7.
    + intros (l & w1 & w2 & -> & H1 & H2). destruct (lei_to_u64 l) as [n|] eqn:E.
      * destruct H2 as (bs & -> & <- & ->). exists w1. split; [eapply lei_any; eassumption|reflexivity].
      * destruct H2 as [-> ->]. rewrite app_nil_r. destruct l; try discriminate; exact H1.
Qed.
Lemma te_les_bytes : takes_exactly read_les_bytes lstring.
Proof.
  unfold read_les_bytes. eapply te_bind with (F := fun l s w => l = LesBytes s /\ w = []); [apply te_les| |].
  - intros [| |s] w0 _; cbn [les_bytes];
      [apply te_fail; [discriminate|intros v w [X _]; discriminate]..|].
    apply te_ret. intros v w. split; intros [H ->]; split; congruence.
  - intros s w. split; [intros H; exists (LesBytes s), w, []; rewrite app_nil_r; auto|].
    intros (l & w1 & w2 & -> & H & -> & ->). rewrite app_nil_r. exact H.
Qed.
