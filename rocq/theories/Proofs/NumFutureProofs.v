(** * The number futures of bytes-parser *)
From Coq Require Import List Arith Lia Bool NArith.
From Verif Require Import Model.Base Model.NumFuture Spec.NumFutureSpec.
Import ListNotations.
Open Scope nat_scope.

Lemma skipn_skipn {A} a : forall b (l : list A), skipn b (skipn a l) = skipn (a + b) l.
Proof. induction a as [|a IH]; intros b l; [reflexivity|]. destruct l; cbn [skipn Nat.add]; [apply skipn_nil|apply IH]. Qed.

Section Read.
  Variable A : Type.
  Variables (len : nat) (f : bytes -> A).
  (** polling again goes on where the last poll left off *)
  Fixpoint run (got : bytes) (steps : list rstep) (stream : bytes) : res A * bytes :=
    match steps with
    | [] => (Loop, stream)
    | RPending :: steps | RInterrupted :: steps => run got steps stream
    | RFailed :: steps => (Err EIO, stream)
    | RTake k :: steps =>
        let n := Nat.min (S k) (len - length got) in
        match firstn n stream with
        | [] => (Err (EIncomplete (Some (N.of_nat (len - length got)))), stream)
        | bs => if length (got ++ bs) =? len then (Ok (f (got ++ bs)), skipn n stream) else run (got ++ bs) steps (skipn n stream)
        end
    end.
  Lemma waiting fuel : forall got stream, num_read_await A len f fuel got [] stream = (Loop, stream).
  Proof. induction fuel as [|fuel IH]; intros; [reflexivity|]. cbn. apply IH. Qed.
  Lemma poll_run steps : forall fuel got stream, length steps <= fuel -> num_read_await A len f (S fuel) got steps stream = run got steps stream.
  Proof.
    induction steps as [|s steps IH]; intros fuel got stream H.
    - apply waiting.
    - cbn [length] in H. destruct s.
      + destruct fuel as [|fuel]; [lia|]. transitivity (num_read_await A len f (S fuel) got steps stream); [reflexivity|]. apply IH. lia.
      + transitivity (num_read_await A len f (S fuel) got steps stream); [reflexivity|]. apply IH. lia.
      + reflexivity.
      + cbn [num_read_await num_read_poll run]. destruct (firstn _ stream) as [|b bs]; [reflexivity|]. destruct (_ =? len); [reflexivity|].
        rewrite <- (IH fuel) by lia. reflexivity.
  Qed.
  Lemma num_read_run steps stream : num_read A len f steps stream = run [] steps stream.
  Proof. apply poll_run. apply Nat.le_refl. Qed.

  Lemma sound_tail s steps : sound (s :: steps) -> sound steps.
  Proof. intros H K. apply H. right. exact K. Qed.

  Lemma firstn_step (got stream : bytes) n : firstn (length got + n) (got ++ stream) = got ++ firstn n stream.
  Proof. rewrite firstn_app. rewrite firstn_all2 by lia. f_equal. f_equal. lia. Qed.

  Lemma run_whole s1 : forall got stream s2, sound s1 -> length got < len -> len <= length got + length stream -> len <= length got + offered s1 ->
    run got (s1 ++ s2) stream = (Ok (f (firstn len (got ++ stream))), skipn (len - length got) stream).
  Proof.
    induction s1 as [|s s1 IH]; intros got stream s2 Hs Hg Hl Ho; [cbn in Ho; lia|]. pose proof (sound_tail _ _ Hs) as Hs'.
    destruct s; cbn [app run offered] in *.
    - apply IH; assumption.
    - apply IH; assumption.
    - exfalso. apply Hs. left. reflexivity.
    - set (n := Nat.min (S k) (len - length got)). assert (Hn : 0 < n /\ n <= length stream /\ length got + n <= len) by lia.
      destruct (firstn n stream) as [|b bs] eqn:E; [apply (f_equal (@length byte)) in E; rewrite firstn_length in E; cbn [length] in E; lia|].
      assert (L : length (got ++ b :: bs) = length got + n) by (rewrite <- E, app_length, firstn_length; lia).
      destruct (Nat.eqb_spec (length (got ++ b :: bs)) len) as [K|K].
      + assert (n = len - length got) by lia. rewrite <- E. replace len with (length got + n) at 1 by lia. rewrite firstn_step. f_equal. f_equal. lia.
      + rewrite IH; [|assumption|lia|rewrite L, skipn_length; lia|rewrite L; lia].
        rewrite L, <- E, <- app_assoc, firstn_skipn, skipn_skipn. f_equal. f_equal. lia.
  Qed.
  Lemma run_end s1 : forall got stream k s2, sound s1 -> length got + length stream < len -> length stream <= offered s1 ->
    run got (s1 ++ RTake k :: s2) stream = (Err (EIncomplete (Some (N.of_nat (len - (length got + length stream))))), []).
  Proof.
    induction s1 as [|s s1 IH]; intros got stream k s2 Hs Hl Ho.
    - cbn in Ho. destruct stream; [|cbn in Ho; lia]. cbn [app run]. rewrite firstn_nil. rewrite Nat.add_0_r. reflexivity.
    - pose proof (sound_tail _ _ Hs) as Hs'. destruct s; cbn [app run offered] in *.
      + apply IH; assumption.
      + apply IH; assumption.
      + exfalso. apply Hs. left. reflexivity.
      + set (n := Nat.min (S k0) (len - length got)). destruct (firstn n stream) as [|b bs] eqn:E.
        * destruct stream as [|x stream]; [rewrite Nat.add_0_r; reflexivity|]. apply (f_equal (@length byte)) in E. rewrite firstn_length in E. cbn [length] in *. lia.
        * assert (L : length (got ++ b :: bs) = length got + Nat.min n (length stream)) by (rewrite <- E, app_length, firstn_length; lia).
          destruct (Nat.eqb_spec (length (got ++ b :: bs)) len) as [K|K]; [lia|].
          rewrite IH; [|assumption|rewrite L, skipn_length; lia|rewrite skipn_length; lia].
          rewrite L, skipn_length. do 4 f_equal. lia.
  Qed.
  Lemma run_short s1 : forall got stream s2, sound s1 -> length got + offered s1 < len -> offered s1 <= length stream ->
    run got (s1 ++ s2) stream = run (got ++ firstn (offered s1) stream) s2 (skipn (offered s1) stream).
  Proof.
    induction s1 as [|s s1 IH]; intros got stream s2 Hs Hg Hl; [cbn; rewrite app_nil_r; reflexivity|]. pose proof (sound_tail _ _ Hs) as Hs'.
    destruct s; cbn [app offered] in *; cbn [run].
    - apply IH; assumption.
    - apply IH; assumption.
    - exfalso. apply Hs. left. reflexivity.
    - replace (Nat.min (S k) (len - length got)) with (S k) by lia.
      destruct (firstn (S k) stream) as [|b bs] eqn:E; [destruct stream; cbn [length firstn] in *; [lia|discriminate]|].
      assert (L : length (got ++ b :: bs) = length got + S k) by (rewrite <- E, app_length, firstn_length; lia).
      destruct (Nat.eqb_spec (length (got ++ b :: bs)) len) as [K|K]; [lia|].
      rewrite IH; [|assumption|lia|rewrite skipn_length; lia]. rewrite <- E, <- app_assoc, skipn_skipn.
      replace (firstn (S k) stream ++ firstn (offered s1) (skipn (S k) stream)) with (firstn (S k + offered s1) stream); [reflexivity|].
      rewrite <- (firstn_skipn (S k) stream) at 1. rewrite firstn_app, firstn_firstn, firstn_length.
      replace (Nat.min (S k + offered s1) (S k)) with (S k) by lia. f_equal. f_equal. lia.
  Qed.
End Read.

Section Write.
  Variable ns : bytes.
  Fixpoint wrun (write : nat) (steps : list wstep) (out : bytes) : res unit * bytes :=
    match steps with
    | [] => (Loop, out)
    | WPending :: steps => wrun 0 steps out
    | WInterrupted :: steps => wrun write steps out
    | WFailed :: steps => (Err EIO, out)
    | WTake k :: steps =>
        let n := Nat.min k (length ns) in
        if n =? 0 then (Err EOutput, out ++ firstn n ns)
        else if write + n =? length ns then (Ok tt, out ++ firstn n ns) else wrun (write + n) steps (out ++ firstn n ns)
    end.
  Lemma wwaiting fuel : forall out, num_write_await ns fuel [] out = (Loop, out).
  Proof. induction fuel as [|fuel IH]; intros; [reflexivity|]. cbn. apply IH. Qed.
  Lemma wpoll_run steps : forall fuel write out, length steps <= fuel ->
    match num_write_poll ns write steps out with
    | (NPending _, (steps, out)) => num_write_await ns fuel steps out
    | (NReady r, (_, out)) => (r, out)
    end = wrun write steps out.
  Proof.
    induction steps as [|s steps IH]; intros fuel write out H.
    - apply wwaiting.
    - cbn [length] in H. destruct s; cbn [num_write_poll wrun].
      + destruct fuel as [|fuel]; [lia|]. cbn [num_write_await]. apply IH. lia.
      + apply IH. lia.
      + reflexivity.
      + destruct (_ =? 0); [reflexivity|]. destruct (_ =? length ns); [reflexivity|]. apply IH. lia.
  Qed.
  Lemma num_write_run steps : num_write ns steps = wrun 0 steps [].
  Proof. apply (wpoll_run steps (length steps) 0 []). apply Nat.le_refl. Qed.

  Lemma firstn_min k : firstn (Nat.min k (length ns)) ns = firstn k ns.
  Proof. rewrite <- firstn_firstn. f_equal. apply firstn_all. Qed.
  Lemma wrun_out steps : forall write out, exists j, snd (wrun write steps out) = out ++ concat (firstn j (pieces ns steps)).
  Proof.
    induction steps as [|s steps IH]; intros write out; [exists 0; cbn; rewrite app_nil_r; reflexivity|]. destruct s; cbn [wrun pieces].
    - apply IH.
    - apply IH.
    - exists 0. cbn. rewrite app_nil_r. reflexivity.
    - rewrite firstn_min. destruct (_ =? 0); [exists 1; cbn; rewrite app_nil_r; reflexivity|]. destruct (_ =? length ns); [exists 1; cbn; rewrite app_nil_r; reflexivity|].
      destruct (IH (write + Nat.min k (length ns)) (out ++ firstn k ns)) as (j & ->). exists (S j). cbn. rewrite <- app_assoc. reflexivity.
  Qed.
  Lemma wrun_idle s1 : forall s2 out, idle s1 -> wrun 0 (s1 ++ s2) out = wrun 0 s2 out.
  Proof. induction s1 as [|s s1 IH]; intros s2 out H; [reflexivity|]. inversion H as [|? ? [->| ->] H']; subst; cbn [app wrun]; apply IH; exact H'. Qed.
  Lemma wrun_ok b tl steps : ns = b :: tl -> forall write out out', wrun write steps out = (Ok tt, out') -> exists rest, out' = out ++ b :: rest.
  Proof.
    intros Hb. induction steps as [|s steps IH]; intros write out out' E; [discriminate E|]. destruct s; cbn [wrun] in E.
    - exact (IH _ _ _ E).
    - exact (IH _ _ _ E).
    - discriminate E.
    - destruct (Nat.eqb_spec (Nat.min k (length ns)) 0) as [K|K]; [discriminate E|].
      assert (F : firstn (Nat.min k (length ns)) ns = b :: firstn (Nat.min k (length ns) - 1) tl).
      { destruct (Nat.min k (length ns)) as [|n]; [lia|]. rewrite Hb. cbn [firstn]. f_equal. f_equal. lia. }
      rewrite F in E. destruct (_ =? length ns).
      + injection E as <-. eexists. reflexivity.
      + destruct (wrun_out steps (write + Nat.min k (length ns)) (out ++ b :: firstn (Nat.min k (length ns) - 1) tl)) as (j & J). rewrite E in J. cbn [snd] in J. rewrite J.
        rewrite <- app_assoc. cbn [app]. eexists. reflexivity.
  Qed.
  Lemma wrun_exact b tl steps : ns = b :: tl -> ~ In b tl -> wrun 0 steps [] = (Ok tt, ns) ->
    exists s1 k s2, steps = s1 ++ WTake k :: s2 /\ idle s1 /\ length ns <= k.
  Proof.
    intros Hb Hin. induction steps as [|s steps IH]; intros E; [discriminate E|]. destruct s; cbn [wrun] in E.
    - destruct (IH E) as (s1 & k & s2 & -> & I1 & I2). exists (WPending :: s1), k, s2. split; [reflexivity|]. split; [constructor; [left; reflexivity|exact I1]|exact I2].
    - destruct (IH E) as (s1 & k & s2 & -> & I1 & I2). exists (WInterrupted :: s1), k, s2. split; [reflexivity|]. split; [constructor; [right; reflexivity|exact I1]|exact I2].
    - discriminate E.
    - destruct (Nat.eqb_spec (Nat.min k (length ns)) 0) as [K|K]; [discriminate E|]. cbn [Nat.add] in E.
      destruct (Nat.eqb_spec (Nat.min k (length ns)) (length ns)) as [K'|K'].
      + exists [], k, steps. split; [reflexivity|]. split; [constructor|lia].
      + exfalso. apply (wrun_ok b tl _ Hb) in E as (rest & E). cbn [app] in E. rewrite Hb in E at 1.
        destruct (Nat.min k (length ns)) as [|n]; [lia|]. rewrite Hb in E. cbn [firstn app] in E. injection E as E. apply Hin. rewrite E. apply in_or_app. right. left. reflexivity.
  Qed.
End Write.
