(** * Lemmas about the basic vocabulary *)
From Verif Require Import Model.Base Spec.Nums.
From Verif Require Export Spec.Decoders.
From Coq Require Export Lia ZifyBool ZifyNat ZifyN.
Open Scope N_scope.
Ltac Zify.zify_post_hook ::= Z.div_mod_to_equations.

(** split syntactic conjunctions only *)
Ltac splits := lazymatch goal with |- _ /\ _ => split; [|splits] | |- _ => idtac end.

Lemma b2n_lt b : b2n b < 256.
Proof. destruct b; reflexivity. Qed.

Lemma n2b_b2n b : n2b (b2n b) = b.
Proof. destruct b; reflexivity. Qed.

Lemma b2n_n2b n : b2n (n2b n) = n mod 256.
Proof.
  unfold n2b, b2n.
  assert (H : n mod 256 <= 255) by lia.
  destruct (Byte.of_N (n mod 256)) eqn:E.
  - apply Byte.to_of_N in E. exact E.
  - exfalso. apply Byte.of_N_None_iff in E. lia.
Qed.

Lemma b2n_n2b_small n : n < 256 -> b2n (n2b n) = n.
Proof. intros. rewrite b2n_n2b. apply N.mod_small; assumption. Qed.

Lemma b2n_inj a b : b2n a = b2n b -> a = b.
Proof. intros H. rewrite <- (n2b_b2n a), <- (n2b_b2n b), H. reflexivity. Qed.

Lemma n2b_inj m n : m < 256 -> n < 256 -> n2b m = n2b n -> m = n.
Proof. intros Hm Hn H. apply (f_equal b2n) in H. rewrite !b2n_n2b_small in H; assumption. Qed.

Lemma byte_eqb_spec a b : reflect (a = b) (Byte.eqb a b).
Proof.
  destruct (Byte.eqb a b) eqn:E; constructor.
  - apply Byte.byte_dec_bl; assumption.
  - intros ->. rewrite (Byte.byte_dec_lb eq_refl) in E. discriminate.
Qed.

Lemma byte_eqb_refl a : Byte.eqb a a = true.
Proof. apply Byte.byte_dec_lb; reflexivity. Qed.

Lemma beqb_spec a b : reflect (a = b) (beqb a b).
Proof.
  revert b; induction a as [|x a IH]; intros [|y b]; cbn; try (constructor; congruence).
  destruct (byte_eqb_spec x y) as [->|n]; cbn.
  - destruct (IH b) as [->|n]; constructor; congruence.
  - constructor; congruence.
Qed.

Lemma blen_app a b : blen (a ++ b) = blen a + blen b.
Proof. unfold blen. rewrite app_length. lia. Qed.
Lemma blen_cons a b : blen (a :: b) = 1 + blen b.
Proof. unfold blen. cbn [length]. lia. Qed.
Lemma blen_nil : blen [] = 0.
Proof. reflexivity. Qed.

Lemma app_split {A} (a b c d : list A) : a ++ b = c ++ d -> (length a <= length c)%nat ->
  exists m, c = a ++ m /\ b = m ++ d.
Proof.
  revert c. induction a as [|x a IH]; intros c E L.
  - exists c. auto.
  - destruct c as [|y c]; [cbn in L; lia|]. cbn in E. injection E as <- E.
    destruct (IH c E) as (m & -> & ->); [cbn in L; lia|]. exists m. auto.
Qed.

(** ** Parser monad *)
Lemma pbind_ok {A B} (p : parser A) (f : A -> parser B) bs a rest :
  p bs = (Ok a, rest) -> pbind p f bs = f a rest.
Proof. unfold pbind. intros ->. reflexivity. Qed.

Lemma pbind_err {A B} (p : parser A) (f : A -> parser B) bs e rest :
  p bs = (Err e, rest) -> pbind p f bs = (Err e, rest).
Proof. unfold pbind. intros ->. reflexivity. Qed.

Lemma pbind_panic {A B} (p : parser A) (f : A -> parser B) bs e rest :
  p bs = (Panic e, rest) -> pbind p f bs = (Panic e, rest).
Proof. unfold pbind. intros ->. reflexivity. Qed.

Lemma pmap_ok {A B} (f : A -> B) (p : parser A) bs a rest :
  p bs = (Ok a, rest) -> pmap f p bs = (Ok (f a), rest).
Proof. unfold pmap, pbind, pret. intros ->. reflexivity. Qed.

Lemma pmap_err {A B} (f : A -> B) (p : parser A) bs e rest :
  p bs = (Err e, rest) -> pmap f p bs = (Err e, rest).
Proof. unfold pmap, pbind, pret. intros ->. reflexivity. Qed.

Lemma pret_ok {A} (a : A) bs : pret a bs = (Ok a, bs).
Proof. reflexivity. Qed.

Lemma pbind_assoc {A B C} (p : parser A) (f : A -> parser B) (g : B -> parser C) bs :
  pbind (pbind p f) g bs = pbind p (fun a => pbind (f a) g) bs.
Proof. unfold pbind. destruct (p bs) as [[| | |] rest]; reflexivity. Qed.

Lemma pbind_pmap {A B C} (f : A -> B) (p : parser A) (g : B -> parser C) bs :
  pbind (pmap f p) g bs = pbind p (fun a => g (f a)) bs.
Proof. unfold pmap, pbind, pret. destruct (p bs) as [[| | |] rest]; reflexivity. Qed.

Lemma pbind_inv {A B} (p : parser A) (f : A -> parser B) bs b rest :
  pbind p f bs = (Ok b, rest) -> exists a mid, p bs = (Ok a, mid) /\ f a mid = (Ok b, rest).
Proof. unfold pbind. destruct (p bs) as [[| | |] mid] eqn:E; try discriminate. eauto. Qed.

Lemma pmap_inv {A B} (f : A -> B) (p : parser A) bs b rest :
  pmap f p bs = (Ok b, rest) -> exists a, p bs = (Ok a, rest) /\ f a = b.
Proof.
  unfold pmap. intros H. apply pbind_inv in H. destruct H as (a & mid & H1 & H2).
  inversion H2; subst. eauto.
Qed.

(** ** Three properties of decoders *)

Lemma no_panic_ret {A} (a : A) : no_panic (pret a).
Proof. intros bs; left; eexists; reflexivity. Qed.
Lemma no_panic_fail {A} e : no_panic (pfail (A:=A) e).
Proof. intros bs; right; eexists; reflexivity. Qed.
Lemma no_panic_bind {A B} (p : parser A) (f : A -> parser B) :
  no_panic p -> (forall a, no_panic (f a)) -> no_panic (pbind p f).
Proof.
  intros Hp Hf bs. unfold pbind. destruct (Hp bs) as [[a H]|[e H]];
  destruct (p bs) as [r rest]; cbn in H; subst r.
  - apply Hf.
  - right; eexists; reflexivity.
Qed.
Lemma no_panic_map {A B} (f : A -> B) p : no_panic p -> no_panic (pmap f p).
Proof. intros. apply no_panic_bind; auto. intros; apply no_panic_ret. Qed.

Lemma suffix_ret {A} (a : A) : suffix_p (pret a).
Proof. intros bs; exists []; reflexivity. Qed.
Lemma suffix_fail {A} e : suffix_p (pfail (A:=A) e).
Proof. intros bs; exists []; reflexivity. Qed.
Lemma suffix_panic {A} e : suffix_p (ppanic (A:=A) e).
Proof. intros bs; exists []; reflexivity. Qed.
Lemma suffix_lift {A} (x : res A) : suffix_p (plift x).
Proof. intros bs; exists []; reflexivity. Qed.
Lemma suffix_peek {A} (p : parser A) : suffix_p (ppeek p).
Proof. intros bs; exists []; reflexivity. Qed.
Lemma suffix_remaining : suffix_p premaining.
Proof. intros bs; exists []; reflexivity. Qed.
Lemma suffix_bind {A B} (p : parser A) (f : A -> parser B) :
  suffix_p p -> (forall a, suffix_p (f a)) -> suffix_p (pbind p f).
Proof.
  intros Hp Hf bs. unfold pbind. destruct (Hp bs) as [used Hu].
  destruct (p bs) as [[a|e|w|] rest]; cbn in Hu |- *; try (exists used; exact Hu).
  destruct (Hf a rest) as [u2 Hu2]. exists (used ++ u2).
  rewrite <- app_assoc, <- Hu2. exact Hu.
Qed.
Lemma suffix_map {A B} (f : A -> B) p : suffix_p p -> suffix_p (pmap f p).
Proof. intros. apply suffix_bind; auto. intros; apply suffix_ret. Qed.

Lemma local_ret {A} (a : A) : local_p (pret a).
Proof. intros bs ext x rest H. inversion H; subst. reflexivity. Qed.
Lemma local_fail {A} e : local_p (pfail (A:=A) e).
Proof. intros bs ext x rest H. discriminate. Qed.
Lemma local_panic {A} e : local_p (ppanic (A:=A) e).
Proof. intros bs ext x rest H. discriminate. Qed.
Lemma local_lift {A} (x : res A) : local_p (plift x).
Proof. intros bs ext a rest H. inversion H; subst. reflexivity. Qed.
Lemma local_bind {A B} (p : parser A) (f : A -> parser B) :
  local_p p -> (forall a, local_p (f a)) -> local_p (pbind p f).
Proof.
  intros Hp Hf bs ext b rest H. apply pbind_inv in H. destruct H as (a & mid & H1 & H2).
  rewrite (pbind_ok _ _ _ _ _ (Hp _ ext _ _ H1)). apply Hf. exact H2.
Qed.
Lemma local_map {A B} (f : A -> B) p : local_p p -> local_p (pmap f p).
Proof. intros. apply local_bind; auto. intros; apply local_ret. Qed.

Lemma good_ret {A} (a : A) : good (pret a).
Proof. repeat split; [apply no_panic_ret|apply suffix_ret|apply local_ret]. Qed.
Lemma good_fail {A} e : good (pfail (A:=A) e).
Proof. repeat split; [apply no_panic_fail|apply suffix_fail|apply local_fail]. Qed.
Lemma good_bind {A B} (p : parser A) (f : A -> parser B) :
  good p -> (forall a, good (f a)) -> good (pbind p f).
Proof.
  intros (H1&H2&H3) H. repeat split.
  - apply no_panic_bind; [assumption|]. intros a; apply H.
  - apply suffix_bind; [assumption|]. intros a; apply H.
  - apply local_bind; [assumption|]. intros a; apply H.
Qed.
Lemma good_map {A B} (f : A -> B) p : good p -> good (pmap f p).
Proof. intros. apply good_bind; auto. intros; apply good_ret. Qed.
Lemma good_repeat {A} n (p : parser A) : good p -> good (prepeat n p).
Proof.
  intros Hp. induction n; cbn [prepeat]; [apply good_ret|].
  apply good_bind; [assumption|]. intros. apply good_bind; [assumption|]. intros. apply good_ret.
Qed.
Lemma good_mapM {X A} (f : X -> parser A) xs : (forall x, good (f x)) -> good (pmapM f xs).
Proof.
  intros Hp. induction xs; cbn [pmapM]; [apply good_ret|].
  apply good_bind; [apply Hp|]. intros. apply good_bind; [assumption|]. intros. apply good_ret.
Qed.

Lemma good_no_panic {A} (p : parser A) : good p -> no_panic p. Proof. intros H; apply H. Qed.
Lemma good_suffix {A} (p : parser A) : good p -> suffix_p p. Proof. intros H; apply H. Qed.
Lemma good_local {A} (p : parser A) : good p -> local_p p. Proof. intros H; apply H. Qed.

Create HintDb parse.
#[export] Hint Resolve no_panic_ret no_panic_fail no_panic_bind no_panic_map : parse.
#[export] Hint Resolve suffix_ret suffix_fail suffix_panic suffix_lift suffix_peek suffix_remaining suffix_bind suffix_map : parse.
#[export] Hint Resolve local_ret local_fail local_panic local_lift local_bind local_map : parse.
#[export] Hint Resolve good_ret good_fail good_bind good_map good_repeat good_mapM : parse.

#[export] Hint Resolve good_no_panic good_suffix good_local : parse.

Lemma no_panic_lift {A} (x : res A) : ((exists a, x = Ok a) \/ (exists e, x = Err e)) -> no_panic (plift x).
Proof. intros H bs. exact H. Qed.
Lemma no_panic_peek {A} (p : parser A) : no_panic p -> no_panic (ppeek p).
Proof. intros H bs. unfold ppeek. cbn. destruct (H bs) as [[a Ha]|[e He]]; eauto. Qed.
#[export] Hint Resolve no_panic_lift no_panic_peek : parse.

(** decompose a compound decoder *)
Ltac pt := repeat (cbv beta zeta; first
  [ solve [auto with parse nocore]
  | match goal with
    | |- no_panic (pbind _ _) => apply no_panic_bind; [|intros ?]
    | |- suffix_p (pbind _ _) => apply suffix_bind; [|intros ?]
    | |- local_p (pbind _ _) => apply local_bind; [|intros ?]
    | |- good (pbind _ _) => apply good_bind; [|intros ?]
    | |- no_panic (pmap _ _) => apply no_panic_map
    | |- suffix_p (pmap _ _) => apply suffix_map
    | |- local_p (pmap _ _) => apply local_map
    | |- good (pmap _ _) => apply good_map
    | |- _ (if ?c then _ else _) => destruct c
    | |- _ (match ?x with _ => _ end) => destruct x
    end ]).
