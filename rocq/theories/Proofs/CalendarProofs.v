(** * The calendar: chrono's algorithm against day counting *)
From Verif Require Import Model.Base Model.Time Spec.SqlSpec Proofs.BaseLemmas.
From Coq Require Import Lia.
Open Scope N_scope.

(** [civil_of_days] counted from 0000-03-01 *)
Definition civil_from (z : N) : naive_date :=
  let era := z / 146097 in
  let doe := z mod 146097 in
  let yoe := (doe - doe / 1460 + doe / 36524 - doe / 146096) / 365 in
  let doy := doe - (365 * yoe + yoe / 4 - yoe / 100) in
  let mp := (5 * doy + 2) / 153 in
  let day := doy - (153 * mp + 2) / 5 + 1 in
  let month := if mp <? 10 then mp + 3 else mp - 9 in
  mk_nd (yoe + era * 400 + (if month <=? 2 then 1 else 0)) month day.
Lemma civil_days d : civil_of_days d = civil_from (d + 719468).
Proof. reflexivity. Qed.
Lemma civil_shift z q : civil_from (z + 146097 * q) =
  mk_nd (nd_year (civil_from z) + 400 * q) (nd_month (civil_from z)) (nd_day (civil_from z)).
Proof.
  unfold civil_from. rewrite (N.mul_comm 146097 q), N.mod_add, N.div_add by discriminate. cbn [nd_year nd_month nd_day]. f_equal.
  clear. ring.
Qed.
(** one era of 400 years *)
Definition date_ok (y m d : N) : bool :=
  negb (d <=? month_days y m) ||
  match civil_from (day_number y m d + 306) with mk_nd y' m' d' => (y' =? y) && (m' =? m) && (d' =? d) end.
Definition upto (n : nat) : list N := map N.of_nat (seq 1 n).
Lemma upto_in n x : 1 <= x <= N.of_nat n -> In x (upto n).
Proof. intros H. apply in_map_iff. exists (N.to_nat x). split; [lia|]. apply in_seq. lia. Qed.
Lemma era_ok : forallb (fun y => forallb (fun m => forallb (date_ok y m) (upto 31)) (upto 12)) (upto 400) = true.
Proof. vm_compute. reflexivity. Qed.
Lemma month_days_31 y m : month_days y m <= 31.
Proof. unfold month_days. destruct (is_leap y); repeat match goal with |- context [match ?x with _ => _ end] => destruct x end; lia. Qed.
Lemma era_civil y m d : 1 <= y <= 400 -> 1 <= m <= 12 -> 1 <= d <= month_days y m ->
  civil_from (day_number y m d + 306) = mk_nd y m d.
Proof.
  intros Hy Hm Hd. pose proof (month_days_31 y m) as H31. pose proof era_ok as E. rewrite forallb_forall in E.
  specialize (E y (upto_in 400 y Hy)). rewrite forallb_forall in E. specialize (E m (upto_in 12 m Hm)). rewrite forallb_forall in E.
  assert (Hd' : 1 <= d <= N.of_nat 31) by lia. specialize (E d (upto_in 31 d Hd')). unfold date_ok in E.
  destruct (N.leb_spec d (month_days y m)); [|lia]. cbn [negb orb] in E.
  destruct (civil_from (day_number y m d + 306)) as [y' m' d']. rewrite !andb_true_iff, !N.eqb_eq in E. destruct E as [[-> ->] ->]. reflexivity.
Qed.
Lemma leap_shift y q : is_leap (y + 400 * q) = is_leap y.
Proof.
  unfold is_leap. replace ((y + 400 * q) mod 400) with (y mod 400) by lia. replace ((y + 400 * q) mod 4) with (y mod 4) by lia.
  replace ((y + 400 * q) mod 100) with (y mod 100) by lia. reflexivity.
Qed.
Lemma month_days_shift y m q : month_days (y + 400 * q) m = month_days y m.
Proof. unfold month_days. rewrite leap_shift. reflexivity. Qed.
Lemma day_number_shift y m d q : 1 <= y -> day_number (y + 400 * q) m d = day_number y m d + 146097 * q.
Proof.
  intros Hy. unfold day_number, days_before_month. rewrite leap_shift.
  assert (E : days_before_year (y + 400 * q) = days_before_year y + 146097 * q) by (unfold days_before_year; lia).
  rewrite E. lia.
Qed.
Lemma civil_calendar y m d : 1 <= y -> calendar_date y m d -> civil_from (day_number y m d + 306) = mk_nd y m d.
Proof.
  intros Hy1 (Hy & Hm & Hd). set (q := (y - 1) / 400). set (y0 := (y - 1) mod 400 + 1).
  assert (E : y = y0 + 400 * q) by (subst q y0; lia). assert (H0 : 1 <= y0 <= 400) by (subst y0; lia). clearbody q y0. subst y.
  rewrite month_days_shift in Hd. rewrite day_number_shift by lia.
  replace (day_number y0 m d + 146097 * q + 306) with (day_number y0 m d + 306 + 146097 * q) by lia.
  rewrite civil_shift, era_civil by assumption. reflexivity.
Qed.
Lemma day_number_1970 y m d : 1970 <= y -> day_number 1970 1 1 <= day_number y m d.
Proof.
  intros Hy. change (day_number 1970 1 1) with 719162. unfold day_number.
  assert (719162 <= days_before_year y) by (unfold days_before_year; lia). lia.
Qed.
Lemma timestamp_civil t : calendar_date (dt_year t) (dt_month t) (dt_day t) -> 1970 <= dt_year t -> dt_hour t < 24 ->
  dt_minute t < 60 -> dt_second t < 60 -> from_timestamp (epoch_seconds t) =
  mk_ndt (mk_nd (dt_year t) (dt_month t) (dt_day t)) (mk_nt (dt_hour t) (dt_minute t) (dt_second t) 0).
Proof.
  intros Hc Hy Hh Hm Hs. pose proof (day_number_1970 _ (dt_month t) (dt_day t) Hy) as HD. assert (Hy1 : 1 <= dt_year t) by lia. pose proof (civil_calendar _ _ _ Hy1 Hc) as HC. clear Hy1.
  unfold from_timestamp, epoch_seconds. change (day_number 1970 1 1) with 719162 in *.
  set (D := day_number _ _ _) in *. set (h := dt_hour t) in *. set (mi := dt_minute t) in *. set (s := dt_second t) in *.
  clearbody D h mi s. clear Hy Hc.
  assert (E1 : ((D - 719162) * 86400 + h * 3600 + mi * 60 + s) / 86400 = D - 719162) by lia.
  assert (E2 : ((D - 719162) * 86400 + h * 3600 + mi * 60 + s) mod 86400 = h * 3600 + mi * 60 + s) by lia.
  rewrite E1, E2, civil_days. replace (D - 719162 + 719468) with (D + 306) by lia. rewrite HC. f_equal. f_equal; lia.
Qed.
