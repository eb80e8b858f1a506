(** * The command [dml] under other schedules and lost connections *)
From Coq Require Import Strings.String.
From Coq Require Import List NArith ZArith Lia Arith Bool.
From Verif Require Import Model.Base Model.BytesParser Model.Conn Model.Flags Model.Packet Model.Auth Model.Cmd Model.Col Model.Rows Model.Stmt Model.Extract
  Model.Session Model.Event Model.Stream Model.Transform Model.MyBinlog Spec.Framing Spec.Programs Proofs.ConnProofs Proofs.ScheduleProofs.
Import ListNotations.
Open Scope N_scope.

Definition ran := (res unit * list bytes * conn * conn)%type.
Definition result (x : ran) : res unit := fst (fst (fst x)).
Definition printed (x : ran) : list bytes := snd (fst (fst x)).
(** what the two runs share; [x] saw fewer bytes on its two connections *)
Definition agree2 (l1 l2 : bytes) (x y : ran) : Prop :=
  (result x = result y /\ printed x = printed y) \/
  (result x = Err EIO /\ (exists more, printed y = printed x ++ more) /\
   (l1 = [] -> l2 = [] -> result y = Err EIO /\ printed x = printed y)).
Lemma event_takes crc s c e c' : next_event crc s c = (Ok (Some e), c') -> (length (arriving c') < length (arriving c))%nat.
Proof.
  unfold next_event. destruct (s_completed s); [discriminate|]. generalize (S (sched_len (c_rd c))). intros f. revert c.
  induction f as [|f IH]; intros c E; [discriminate E|]. cbn [next_event_loop] in E. apply ibind_inv in E. destruct E as (x & d & R & E).
  assert (T : (length (arriving d) < length (arriving c))%nat).
  { unfold recv_and_parse_event in R. apply ibind_inv in R. destruct R as (msg & d0 & R0 & R). apply recv_takes in R0.
    destruct msg as [|h msg]; [discriminate R|]. destruct (s_non_block s && (b2n h =? 254)); [injection R as _ <-; exact R0|].
    destruct (negb (b2n h =? 0)); [discriminate R|]. apply ibind_inv in R. destruct R as (o & d2 & P & R). injection P as _ <-. injection R as _ <-. exact R0. }
  destruct x as [x| |]; [injection E as _ <-; exact T| |discriminate E]. apply IH in E. lia.
Qed.
Section Dml.
  Variables fmt_f32 fmt_f64 : N -> bytes.
  Variable crc : bytes -> N.
  Variable checks : bool.
  Variable o : dml_options.
  Lemma steady_dml_event st e : steady (dml_event fmt_f32 fmt_f64 checks o st e).
  Proof.
    unfold dml_event. destruct (ev_kind e); try (st; fail). unfold dml_table_map. apply steady_bind; [st|]. intros d. cbv zeta.
    destruct (find_table (tmd_table_id d) (dm_tbls st)); [st|]. destruct (skips (tmd_table_id d) (dm_skip st)); [st|].
    apply steady_bind; [st|]. intros tm. destruct (_ || _); [st|]. apply steady_bind; [unfold conn_init_db; st|]. intros _. st.
  Qed.
  Lemma dml_loop_agree s : forall f1 f2 st l1 l2 c1 c2 h1 h2, follows l1 c1 c2 -> follows l2 h1 h2 ->
    (length (arriving c1) < f1)%nat -> (length (arriving c2) < f2)%nat ->
    agree2 l1 l2 (dml_loop fmt_f32 fmt_f64 crc checks o f1 s st c1 h1) (dml_loop fmt_f32 fmt_f64 crc checks o f2 s st c2 h2).
  Proof.
    induction f1 as [|f1 IH]; intros f2 st l1 l2 c1 c2 h1 h2 F G L1 L2; [lia|]. destruct f2 as [|f2]; [lia|]. cbn [dml_loop].
    pose proof (steady_event crc s l1 c1 c2 F) as H.
    destruct (next_event crc s c1) as [r1 d1] eqn:E1, (next_event crc s c2) as [r2 d2] eqn:E2.
    destruct H as [(H1 & H2 & H3)|(H1 & _ & H2)]; cbn [fst snd] in *.
    - subst r2. destruct r1 as [[e|]|e|p|]; try (left; split; reflexivity).
      apply event_takes in E1. apply event_takes in E2.
      pose proof (steady_dml_event st e l2 h1 h2 G) as K.
      destruct (dml_event fmt_f32 fmt_f64 checks o st e h1) as [q1 g1], (dml_event fmt_f32 fmt_f64 checks o st e h2) as [q2 g2].
      destruct K as [(K1 & K2 & K3)|(K1 & _ & K2)]; cbn [fst snd] in *.
      + subst q2. destruct q1 as [[out [st'|]]|x|p|]; try (left; split; reflexivity).
        specialize (IH f2 st' l1 l2 d1 d2 g1 g2 (conj H2 H3) (conj K2 K3) ltac:(lia) ltac:(lia)).
        destruct (dml_loop _ _ _ _ _ f1 s st' d1 g1) as [[[x1 p1] ?] ?], (dml_loop _ _ _ _ _ f2 s st' d2 g2) as [[[x2 p2] ?] ?].
        unfold agree2, result, printed in *. cbn [fst snd] in *. destruct IH as [[-> ->]|(-> & (more & ->) & IH)]; [left; auto|right].
        split; [reflexivity|]. split; [exists more; apply app_assoc|]. intros A B. destruct (IH A B) as [-> E]. split; [reflexivity|]. f_equal. exact E.
      + subst q1. right. split; [reflexivity|]. split.
        * eexists. reflexivity.
        * intros A B. destruct (K2 B) as [-> _]. split; reflexivity.
    - subst r1. right. split; [reflexivity|]. split; [eexists; reflexivity|]. intros A B. destruct (H2 A) as [-> _]. split; reflexivity.
  Qed.
  Lemma print_dmls_agree uuid id filename nb l1 l2 c1 c2 h1 h2 : follows l1 c1 c2 -> follows l2 h1 h2 ->
    agree2 l1 l2 (print_dmls fmt_f32 fmt_f64 crc checks o uuid id filename nb c1 h1)
                 (print_dmls fmt_f32 fmt_f64 crc checks o uuid id filename nb c2 h2).
  Proof.
    intros F G. unfold print_dmls.
    match goal with |- context [request_stream checks uuid id ?opt c1] => pose proof (steady_request checks uuid id opt l1 c1 c2 F) as H;
      destruct (request_stream checks uuid id opt c1) as [r1 d1], (request_stream checks uuid id opt c2) as [r2 d2] end.
    destruct H as [(H1 & H2 & H3)|(H1 & _ & H2)]; cbn [fst snd] in *.
    - subst r2. destruct r1 as [s|e|p|]; try (left; split; reflexivity). unfold dml_run.
      pose proof (arriving_le d1). pose proof (arriving_le d2). apply dml_loop_agree; [split; assumption|exact G|lia..].
    - subst r1. right. split; [reflexivity|]. split; [eexists; reflexivity|]. intros A B. destruct (H2 A) as [-> _]. split; reflexivity.
  Qed.
End Dml.
