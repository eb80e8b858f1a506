(** C40 and C42: exactly which logged values have the right literal and the right JSON value.
    SQL values: Spec/SqlSpec.v; JSON values: Spec/JsonSpec.v; what a server stores: Spec/Storable.v. *)
From Coq Require Import Strings.String Lia.
From Verif Require Import Model.Base Model.Utf8 Model.Auth Model.Fmt Model.Time Model.Decimal Model.Col Model.Rows Model.Stmt Model.Transform
  Spec.Nums Spec.Temporal Spec.DecimalSpec Spec.SqlSpec Spec.JsonSpec Spec.Storable
  Proofs.BytesParserProofs Proofs.SqlProofs Proofs.SqlStmtProofs Proofs.SqlFindings Proofs.JsonProofs Proofs.TextExact Proofs.ExactProofs Proofs.ImageProofs
  Properties.C40_C42_Transform.
Import ListNotations.
Open Scope N_scope.

(** *** Lemmas *)
Lemma calendar_or y m d : y <= 9999 -> calendar_date y m d \/ ~ (1 <= m <= 12 /\ 1 <= d <= month_days y m).
Proof.
  intros Y. destruct (N.leb_spec 1 m), (N.leb_spec m 12), (N.leb_spec 1 d), (N.leb_spec d (month_days y m)); try (right; lia). left. repeat split; assumption.
Qed.
Lemma int_tokens_inj a b ts : value_tokens (VInt (Z.of_N a)) ts -> value_tokens (VInt (Z.of_N b)) ts -> a = b.
Proof.
  cbn [value_tokens]. intros (s & Na & ->) (s' & Nb & E).
  assert (Fa : forall n, (Z.of_N n <? 0)%Z = false) by (intros n; apply Z.ltb_ge; apply N2Z.is_nonneg). rewrite !Fa in E. injection E as <-.
  assert (Ab : forall n, Z.abs_N (Z.of_N n) = n) by (intros n; destruct n; reflexivity). rewrite !Ab in *. exact (numeral_inj a b s Na Nb).
Qed.
Lemma text_token_inj a b : [TkText a] = [TkText b] -> a = b.
Proof. congruence. Qed.
Lemma json_string_inj a b : JString a = JString b -> a = b.
Proof. congruence. Qed.
Lemma no_fraction t : text_datetime (mk_dt (dt_year t) (dt_month t) (dt_day t) (dt_hour t) (dt_minute t) (dt_second t) 0) = text_datetime t -> dt_micro t = 0.
Proof.
  unfold text_datetime, text_fraction. cbn [dt_year dt_month dt_day dt_hour dt_minute dt_second dt_micro]. change (0 =? 0) with true. cbv iota.
  rewrite app_nil_r. destruct (N.eqb_spec (dt_micro t) 0) as [E|_]; [intros _; exact E|]. intros E. apply (f_equal (@length byte)) in E.
  rewrite !app_length in E. cbn [length str] in E. exfalso. revert E. change (length (str ".")) with 1%nat. lia.
Qed.

(** *** C40 *)
(** Among the values that a server stores, exactly those with [expressible] have a literal that is read as the value *)
Theorem C40_exact : forall fmt_f32 fmt_f64 esc unsigned v x, logged fmt_f32 fmt_f64 unsigned v x -> storable v ->
  ((exists s ts, rbind (sv_of_binlog v unsigned) (param_text fmt_f32 fmt_f64) = Ok s /\ value_tokens x ts /\ reads_as esc s ts) <-> expressible esc v).
Proof.
  intros f g esc u v x L St. split; [|intros X; exact (C40_literal f g esc u v x L X)].
  intros (s & ts & E & V & R). change (literal_of f g v u = Ok s) in E. destruct L; cbn [expressible]; cbn [storable] in St; try exact I.
  - destruct (calendar_or y m d St) as [C|C]; [exact C|]. rewrite (zero_date f g y m d u C) in E. discriminate E.
  - exact St.
  - destruct St as (Y & H1 & H2 & H3 & H4). destruct (calendar_or _ (dt_month t) (dt_day t) Y) as [C|C]; [|rewrite (zero_datetime f g t u C) in E; discriminate E].
    destruct (datetime_fraction f g esc t u C H1 H2 H3 H4) as (s' & E' & R'). rewrite E in E'. injection E' as <-.
    cbn [value_tokens] in V. subst ts. pose proof (text_token_inj _ _ (reads_unique esc s _ _ R' R)) as U. repeat split; try assumption; try apply C. exact (no_fraction t U).
  - destruct (le_lt_dec (length bs) 8) as [B|B]; [|rewrite (bit_wide f g bs u B) in E; discriminate E]. split; [exact B|].
    destruct (bit_order f g esc bs u B) as (s' & ts' & E' & V' & R'). rewrite E in E'. injection E' as <-.
    rewrite <- (reads_unique esc s _ _ R R') in V'. pose proof (int_tokens_inj _ _ _ V V') as U. unfold be_val in U. apply le_val_inj; [apply rev_length|exact U].
  - apply (C40_text_exact f g esc bs u (LVarString bs)); [left; reflexivity|]. cbn [value_tokens] in V. subst ts. exists s. split; assumption.
  - apply (C40_text_exact f g esc bs u (LString bs)); [right; reflexivity|]. cbn [value_tokens] in V. subst ts. exists s. split; assumption.
Qed.
Print Assumptions C40_exact.

(** *** C42 *)
(** Among the values that a server stores, exactly those with [json_expressible] have the right JSON value *)
Theorem C42_value_exact : forall widen fmt_f32 fmt_f64 unsigned v x, logged fmt_f32 fmt_f64 unsigned v x -> storable v ->
  ((exists j b, rbind (sv_of_binlog v unsigned) (to_json_value widen) = Ok (j, b) /\ json_means widen v x j /\ (b = true <-> exists bs, x = VBinary bs)) <->
   json_expressible widen v).
Proof.
  intros widen f g u v x L St. split.
  - intros (j & b & E & M & _). destruct (C42_values_refuted widen u f g) as (U1 & U2 & U3 & U4 & U5 & U6 & U7 & U8 & _).
    destruct L; cbn [json_expressible expressible]; cbn [storable] in St; try exact I.
    + destruct (N.eq_dec (widen n / 2 ^ 52 mod 2 ^ 11) 2047) as [F|F]; [|exact F]. rewrite U3 in E; [discriminate E|]. intros Z. exact (Z F).
    + destruct (N.eq_dec (n / 2 ^ 52 mod 2 ^ 11) 2047) as [F|F]; [|exact F]. rewrite U2 in E; [discriminate E|]. intros Z. exact (Z F).
    + destruct (calendar_or y m d St) as [C|C]; [exact C|]. rewrite (U7 y m d C) in E. discriminate E.
    + exact St.
    + destruct St as (Y & H1 & H2 & H3 & H4). destruct (calendar_or _ (dt_month t) (dt_day t) Y) as [C|C]; [|rewrite (U8 t C) in E; discriminate E].
      rewrite (U6 t C H1 H2 H3 H4) in E. injection E as <- _. cbn [json_means] in M. apply json_string_inj in M. repeat split; try assumption; try apply C. exact (no_fraction t M).
    + destruct (le_lt_dec (length bs) 8) as [B|B]; [|rewrite (U5 bs B) in E; discriminate E]. split; [exact B|].
      rewrite (U4 bs B) in E. injection E as <- _. cbn [json_means] in M. injection M as M. apply N2Z.inj in M. unfold be_val in M. apply le_val_inj; [apply rev_length|symmetry; exact M].
    + destruct (utf8_valid bs) eqn:Hv; [reflexivity|]. destruct (U1 bs Hv) as [_ Z]. rewrite Z in E. discriminate E.
    + destruct (utf8_valid bs) eqn:Hv; [reflexivity|]. destruct (U1 bs Hv) as [Z _]. rewrite Z in E. discriminate E.
  - intros X. destruct (json_value_ok widen f g u v x L X) as (sv & j & b & E1 & E2 & M & B). exists j, b. rewrite E1. cbn [rbind]. rewrite E2. split; [reflexivity|]. split; [exact M|].
    destruct b; split; intros Z; [exact B|reflexivity|discriminate Z|]. destruct Z as (bs & Z). destruct (B bs Z).
Qed.
Print Assumptions C42_value_exact.

(** *** Examples *)
(** a stored value on each side of the line, for SQL and for JSON: '100%' as text with a backslash, BIT(16) *)
Example C40_C42_exact_example : forall fmt_f32 fmt_f64 (widen : N -> N),
  let text := LVarString [x35; x5c; x25] in let bad := LVarString [x5c; x6e] in let bits := LBit [x01; x02] in
  (logged fmt_f32 fmt_f64 false text (VText [x35; x5c; x25]) /\ storable text /\ expressible true text) /\
  (logged fmt_f32 fmt_f64 false bad (VText [x5c; x6e]) /\ storable bad /\ ~ expressible true bad /\ json_expressible widen bad) /\
  (logged fmt_f32 fmt_f64 false bits (VInt 258) /\ storable bits /\ ~ expressible true bits /\ ~ json_expressible widen bits).
Proof.
  intros f g widen. cbv zeta. split; [|split].
  - split; [constructor|]. split; [exact I|]. split; [reflexivity|]. split.
    + intros _. cbn [kept_escapes]. split; [discriminate|]. split; [intros _; exists x25, []; split; [reflexivity|left; reflexivity]|]. split; [discriminate|exact I].
    + right. repeat constructor.
  - split; [constructor|]. split; [exact I|]. split; [|reflexivity]. intros (_ & K & _). destruct (K eq_refl) as [K1 _].
    destruct (K1 eq_refl) as (c & r & E & [Z|Z]); injection E as <- _; discriminate Z.
  - split; [apply (lg_bit f g false [x01; x02])|]. split; [exact I|]. split; intros [_ Z]; discriminate Z.
Qed.
