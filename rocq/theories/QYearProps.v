(** QYearProps.v -- day counts and time differences: the properties (C92-C95). *)
From Coq Require Import ZArith List Bool Reals Lia Lra.
From Flocq Require Import Core.
From Flocq Require Import IEEE754.BinarySingleNaN.
From Verif Require Import Base CivilSpec FloatModel FloatFacts QDateModel QDateProofs QCalModel QCalSpec QCalRules QCalProps
  QYearModel QYearProofs QYearSpec.
Import ListNotations.
Open Scope Z_scope.

(** joint calendars have at least one calendar (C85) *)
Definition built (a : any_calendar) : Prop := a <> Joint [].
Lemma built_year_fraction : forall a s e dc, built a -> year_fraction a s e dc = cal_year_fraction s e dc.
Proof. intros [c|[|c cs]] s e dc H; try reflexivity. exfalso. apply H. reflexivity. Qed.

Lemma leap_agrees : forall y, (if is_leap_year y then 366 else 365) = year_days y.
Proof.
  intro y. unfold year_days. replace (leapb y) with (is_leap_year y); [reflexivity|].
  apply eq_true_iff_eq. rewrite c77_leap_year. symmetry. apply leapb_leap.
Qed.
Lemma year_of_day : forall y n, in_the_year y n <-> date_year n = y.
Proof.
  intros y n. unfold in_the_year. pose proof (month_last y) as L. change (month_days y 12) with 31 in L.
  unfold day_number. rewrite month_start_1. pose proof (year_next y) as N. split; intro H.
  - apply date_year_unique. lia.
  - subst y. pose proof (date_year_spec n). lia.
Qed.

(** ** C92: Actual/365, /360, /364 *)
Theorem c92_actual : forall a s e, built a -> odt_ok s -> odt_ok e ->
  (instant e < instant s -> forall dc, year_fraction a s e dc = Ret RErr) /\
  (year_fraction a s e DummyCount = Ret RErr) /\
  (instant s <= instant e -> forall dc n, In (dc, n) [(Actual365Fixed, 365); (Actual360, 360); (Actual364, 364)] ->
    exists x, year_fraction a s e dc = Ret (ROk x) /\ nearest_f32 x (IZR (full_days s e) / IZR n)).
Proof.
  intros a s e Ha Hs He. rewrite built_year_fraction by exact Ha. unfold cal_year_fraction.
  split; [|split].
  - intros H dc. rewrite built_year_fraction by exact Ha. unfold cal_year_fraction. rewrite (proj2 (Z.ltb_lt _ _) H). reflexivity.
  - destruct (instant e <? instant s); reflexivity.
  - intros H dc n Hin. rewrite built_year_fraction by exact Ha. unfold cal_year_fraction. rewrite (proj2 (Z.ltb_ge _ _) H).
    assert (W : whole_days (instant e - instant s) = full_days s e).
    { unfold whole_days, full_days. apply Z.quot_div_nonneg; [lia|reflexivity]. }
    assert (R : 0 <= full_days s e <= 2 ^ 23).
    { destruct Hs as (S1 & S2 & S3), He as (E1 & E2 & E3). unfold in_range in *. rewrite andb_true_iff, !Z.leb_le in S1, E1.
      unfold date_min, date_max in *. unfold full_days, instant in *. unfold day_ns in *. Z.to_euclidean_division_equations. lia. }
    assert (G : forall k, 360 <= k <= 365 -> nearest_f32 (gdiv (gof_Z (full_days s e)) (gof_Z k)) (IZR (full_days s e) / IZR k)).
    { intros k Hk. assert (K : (360 <= IZR k <= 365)%R) by (split; apply IZR_le; lia).
      assert (F : (0 <= IZR (full_days s e) <= 8388608)%R) by (split; apply IZR_le; lia).
      unfold nearest_f32. apply fin_div; [apply of_Z_fin; lia|apply of_Z_fin; lia|lra|].
      small. apply Rle_trans with 8388608%R; [|apply IZR_le; lia]. rewrite Rabs_pos_eq.
      - apply Rmult_le_reg_r with (IZR k); [lra|]. unfold Rdiv. rewrite Rmult_assoc, Rinv_l; lra.
      - apply Rmult_le_pos; [lra|]. left. apply Rinv_0_lt_compat. lra. }
    rewrite W. cbn [In] in Hin. destruct Hin as [Q|[Q|[Q|[]]]]; injection Q as <- <-; eexists; (split; [reflexivity|]); apply G; lia.
Qed.
(** so it never decreases when the end moves on or the start moves back *)
Theorem c92_monotone : forall a s e s' e' dc x x', built a -> odt_ok s -> odt_ok e -> odt_ok s' -> odt_ok e' ->
  dc = Actual365Fixed \/ dc = Actual360 \/ dc = Actual364 -> instant s' <= instant s -> instant e <= instant e' ->
  year_fraction a s e dc = Ret (ROk x) -> year_fraction a s' e' dc = Ret (ROk x') ->
  exists v v', fin 24 128 x v /\ fin 24 128 x' v' /\ (0 <= v <= v')%R.
Proof.
  intros a s e s' e' dc x x' Ha Hs He Hs' He' Hdc A B X X'.
  destruct (c92_actual a s e Ha Hs He) as (E1 & _ & V1). destruct (c92_actual a s' e' Ha Hs' He') as (E2 & _ & V2).
  assert (H : instant s <= instant e).
  { destruct (Z.le_gt_cases (instant s) (instant e)) as [|G]; [assumption|]. rewrite (E1 G dc) in X. discriminate X. }
  assert (N : exists n, 0 < n /\ In (dc, n) [(Actual365Fixed, 365); (Actual360, 360); (Actual364, 364)]).
  { destruct Hdc as [->|[->| ->]]; eexists; (split; [|cbn [In]; eauto]); lia. }
  destruct N as (n & Hn & I). destruct (V1 H dc n I) as (y & Y & F). destruct (V2 ltac:(lia) dc n I) as (y' & Y' & F').
  rewrite X in Y. injection Y as <-. rewrite X' in Y'. injection Y' as <-.
  exists (rnd 24 128 (IZR (full_days s e) / IZR n)), (rnd 24 128 (IZR (full_days s' e') / IZR n)).
  split; [exact F|]. split; [exact F'|]. apply IZR_lt in Hn.
  assert (P : (0 <= / IZR n)%R) by (left; apply Rinv_0_lt_compat; exact Hn). split.
  - apply rnd_nonneg; [typeclasses eauto|]. apply Rmult_le_pos; [|exact P]. apply IZR_le. unfold full_days. apply Z.div_pos; [lia|reflexivity].
  - apply rnd_le; [typeclasses eauto|]. apply Rmult_le_compat_r; [exact P|]. apply IZR_le. unfold full_days. apply Z.div_le_mono; [reflexivity|lia].
Qed.
Example c92_hypotheses_met : built (One NullCalendar) /\ odt_ok (midnight 2024 5 6 9) /\
  instant (midnight 2024 1 1 9) <= instant (midnight 2024 5 6 9) /\ full_days (midnight 2024 1 1 9) (midnight 2024 5 6 9) = 126.
Proof.
  split; [discriminate|]. split; [apply (away_example 0); lia|]. split; [apply Z.leb_le; reflexivity|reflexivity].
Qed.

(** ** C93: 30/360 *)
Definition ymd (d : odt) (y m dd : Z) : Prop := valid_date y m dd /\ od_day d = day_number y m dd.
Lemma ymd_fields : forall d y m dd, ymd d y m dd ->
  date_year (od_day d) = y /\ date_month (od_day d) = m /\ date_day (od_day d) = dd.
Proof. intros d y m dd [V E]. apply date_is; assumption. Qed.
Lemma over_360 : forall n, Z.abs n <= 2 ^ 24 -> nearest_f32 (gdiv (gof_Z n) (gof_Z 360)) (IZR n / 360).
Proof.
  intros n H. assert (B : (-16777216 <= IZR n <= 16777216)%R) by (split; apply IZR_le; lia).
  apply fin_div; [apply of_Z_fin; lia|apply of_Z_fin; lia|lra|]. small. apply Rle_trans with 16777216%R; [apply Rabs_le; lra|apply IZR_le; lia].
Qed.
Lemma ok_year : forall d y m dd, odt_ok d -> ymd d y m dd -> -9999 <= y <= 9999.
Proof. intros d y m dd [R _] H. apply in_range_year in R. rewrite (proj1 (ymd_fields _ _ _ _ H)) in R. exact R. Qed.

Theorem c93_thirty360_partial : forall a s e y1 m1 d1 y2 m2 d2, built a -> odt_ok s -> odt_ok e ->
  ymd s y1 m1 d1 -> ymd e y2 m2 d2 -> instant s <= instant e -> d1 <> 31 -> d2 <> 31 ->
  exists x, year_fraction a s e Thirty360 = Ret (ROk x) /\
    nearest_f32 x (IZR (days_30_360_us y1 m1 d1 y2 m2 d2) / 360) /\ nearest_f32 x (IZR (days_30_360_eu y1 m1 d1 y2 m2 d2) / 360).
Proof.
  intros a s e y1 m1 d1 y2 m2 d2 Ha Hs He Ys Ye L N1 N2.
  pose proof (ok_year _ _ _ _ Hs Ys) as B1. pose proof (ok_year _ _ _ _ He Ye) as B2.
  rewrite built_year_fraction by exact Ha. unfold cal_year_fraction. rewrite (proj2 (Z.ltb_ge _ _) L).
  eexists. split; [reflexivity|]. unfold thirty360_days, days_30_360_us, days_30_360_eu. cbv zeta.
  destruct (ymd_fields _ _ _ _ Ys) as (-> & -> & ->). destruct (ymd_fields _ _ _ _ Ye) as (-> & -> & ->).
  destruct Ys as [(V1 & V2) _]. destruct Ye as [(W1 & W2) _].
  pose proof (month_days_range y1 m1). pose proof (month_days_range y2 m2).
  rewrite (proj2 (Z.eqb_neq _ _) N1), (proj2 (Z.eqb_neq _ _) N2). cbn [andb]. split; apply over_360; lia.
Qed.
(** a month end counts 31 - 30 days more or less: from 31 January to 30 April
    (89 actual days, 90 in any 30/360) it answers 89 *)
Theorem c93_thirty360_refuted : let s := midnight 2023 1 31 0 in let e := midnight 2023 4 30 0 in
  ymd s 2023 1 31 /\ ymd e 2023 4 30 /\
  days_30_360_us 2023 1 31 2023 4 30 = 90 /\ days_30_360_eu 2023 1 31 2023 4 30 = 90 /\
  exists x, year_fraction (One NullCalendar) s e Thirty360 = Ret (ROk x) /\ nearest_f32 x (89 / 360).
Proof.
  cbv zeta. split; [|split; [|split; [reflexivity|split; [reflexivity|]]]].
  - split; [split; [lia|change (month_days 2023 1) with 31; lia]|reflexivity].
  - split; [split; [lia|change (month_days 2023 4) with 30; lia]|reflexivity].
  - eexists. split; [reflexivity|]. apply (over_360 89). lia.
Qed.
Theorem c93_street_partial : forall a s e y1 m1 d1 y2 m2 d2, built a -> odt_ok s -> odt_ok e ->
  ymd s y1 m1 d1 -> ymd e y2 m2 d2 -> instant s <= instant e -> ~ (30 <= d1 /\ d2 = 31) ->
  exists x, year_fraction a s e StreetConvention = Ret (ROk x) /\
    nearest_f32 x (IZR (days_30_360_us y1 m1 d1 y2 m2 d2) / 360).
Proof.
  intros a s e y1 m1 d1 y2 m2 d2 Ha Hs He Ys Ye L N.
  pose proof (ok_year _ _ _ _ Hs Ys) as B1. pose proof (ok_year _ _ _ _ He Ye) as B2.
  rewrite built_year_fraction by exact Ha. unfold cal_year_fraction. rewrite (proj2 (Z.ltb_ge _ _) L).
  eexists. split; [reflexivity|]. unfold street_days, thirty360_days, days_30_360_us. cbv zeta.
  destruct (ymd_fields _ _ _ _ Ys) as (-> & -> & ->). destruct (ymd_fields _ _ _ _ Ye) as (-> & -> & ->).
  destruct Ys as [(V1 & V2) _]. destruct Ye as [(W1 & W2) _].
  pose proof (month_days_range y1 m1). pose proof (month_days_range y2 m2).
  match goal with |- nearest_f32 (gdiv (gof_Z ?u) _) (IZR ?v / 360) => assert (Q : u = v) end.
  { destruct (Z.eqb_spec d1 31); destruct (Z.eqb_spec d2 31); cbn [andb]; [lia|lia| |lia].
    destruct (Z.eqb_spec d1 30); lia. }
  rewrite Q. apply over_360. destruct (Z.eqb_spec d1 31); destruct ((d2 =? 31) && _); lia.
Qed.
(** from 31 January to 31 March it answers 30 days instead of 60, and from a
    31st to itself minus one month *)
Theorem c93_street_refuted : forall d y m, odt_ok d -> ymd d y m 31 ->
  days_30_360_us y m 31 y m 31 = 0 /\
  (exists x, year_fraction (One NullCalendar) d d StreetConvention = Ret (ROk x) /\ nearest_f32 x (-30 / 360)) /\
  (exists x, year_fraction (One NullCalendar) (midnight 2023 1 31 0) (midnight 2023 3 31 0) StreetConvention = Ret (ROk x) /\
     nearest_f32 x (30 / 360)) /\ days_30_360_us 2023 1 31 2023 3 31 = 60.
Proof.
  intros d y m Hd Hy. split; [unfold days_30_360_us; cbv zeta; cbn [Z.eqb Pos.eqb andb]; lia|]. split; [|split; [|reflexivity]].
  - unfold year_fraction, cal_year_fraction. rewrite Z.ltb_irrefl. eexists. split; [reflexivity|].
    unfold street_days, thirty360_days. destruct (ymd_fields _ _ _ _ Hy) as (-> & -> & ->). cbn [Z.eqb Pos.eqb].
    replace (360 * (y - y) + 30 * (m - m) + (31 - 31) - 30) with (-30) by lia. apply (over_360 (-30)). lia.
  - eexists. split; [reflexivity|]. apply (over_360 30). lia.
Qed.
Example c93_hypotheses_met : ymd (midnight 2024 2 29 0) 2024 2 29 /\ ymd (midnight 2024 1 31 0) 2024 1 31 /\
  instant (midnight 2024 1 31 0) <= instant (midnight 2024 2 29 0).
Proof.
  split; [|split].
  - split; [split; [lia|change (month_days 2024 2) with 29; lia]|reflexivity].
  - split; [split; [lia|change (month_days 2024 1) with 31; lia]|reflexivity].
  - apply Z.leb_le. reflexivity.
Qed.

(** ** C94, C95: Actual/Actual *)
Lemma act_act_app : forall u n m y a b, (act_act u (n + m) y a b = act_act u n y a b + act_act u m (y + Z.of_nat n) a b)%R.
Proof.
  induction n as [|n IH]; intros m y a b.
  - cbn [Nat.add act_act Z.of_nat]. rewrite Z.add_0_r. lra.
  - cbn [Nat.add act_act]. rewrite IH. replace (y + 1 + Z.of_nat n) with (y + Z.of_nat (S n)) by lia. lra.
Qed.
Lemma jan1 : forall y, day_number y 1 1 = year_start y.
Proof. intro y. unfold day_number. rewrite month_start_1. lia. Qed.
Lemma year_days_pos : forall y, 365 <= year_days y <= 366.
Proof. intro y. unfold year_days. destruct (leapb y); lia. Qed.
Lemma act_act_mid : forall u n y a b, 0 < u -> a <= u * year_start y -> u * year_start (y + Z.of_nat n) <= b ->
  act_act u n y a b = INR n.
Proof.
  induction n as [|n IH]; intros y a b Hu Ha Hb; [reflexivity|].
  cbn [act_act]. rewrite !jan1. rewrite S_INR.
  assert (M : year_start (y + 1) <= year_start (y + Z.of_nat (S n))).
  { destruct (Z.eq_dec (y + 1) (y + Z.of_nat (S n))) as [E|E]; [rewrite E; lia|].
    pose proof (year_start_mono (y + 1) (y + Z.of_nat (S n)) ltac:(lia)). pose proof (year_days_pos (y + 1)). lia. }
  pose proof (year_next y) as N. pose proof (year_days_pos y) as D.
  rewrite IH; [|exact Hu|nia|replace (y + 1 + Z.of_nat n) with (y + Z.of_nat (S n)) by lia; exact Hb].
  assert (O : overlap a b (u * year_start y) (u * year_start (y + 1)) = u * year_days y) by (unfold overlap; nia).
  rewrite O. unfold Rdiv. rewrite Rinv_r; [lra|]. apply not_0_IZR. nia.
Qed.
Lemma act_act_years : forall u y1 y2 a b, 0 < u -> y1 < y2 ->
  u * year_start y1 <= a <= u * year_start (y1 + 1) -> u * year_start y2 <= b <= u * year_start (y2 + 1) ->
  act_act u (Z.to_nat (y2 - y1 + 1)) y1 a b =
  (IZR (u * year_start (y1 + 1) - a) / IZR (u * year_days y1) + IZR (y2 - y1 - 1)
   + IZR (b - u * year_start y2) / IZR (u * year_days y2))%R.
Proof.
  intros u y1 y2 a b Hu Hy Ha Hb. assert (N : exists n, Z.to_nat (y2 - y1 + 1) = (1 + (n + 1))%nat /\ Z.of_nat n = y2 - y1 - 1)
    by (exists (Z.to_nat (y2 - y1 - 1)); lia).
  destruct N as (n & -> & Hn). rewrite !act_act_app. cbn [act_act]. rewrite <- Hn, <- INR_IZR_INZ.
  change (Z.of_nat 1) with 1. replace (y1 + 1 + Z.of_nat n) with y2 by lia. rewrite !jan1.
  assert (M : year_start (y1 + 1) <= year_start y2).
  { destruct (Z.eq_dec (y1 + 1) y2) as [E|E]; [rewrite E; lia|].
    pose proof (year_start_mono (y1 + 1) y2 ltac:(lia)). pose proof (year_days_pos (y1 + 1)). lia. }
  rewrite act_act_mid; [|exact Hu|lia|replace (y1 + 1 + Z.of_nat n) with y2 by lia; lia].
  assert (O1 : overlap a b (u * year_start y1) (u * year_start (y1 + 1)) = u * year_start (y1 + 1) - a) by (unfold overlap; nia).
  assert (O2 : overlap a b (u * year_start y2) (u * year_start (y2 + 1)) = b - u * year_start y2) by (unfold overlap; nia).
  rewrite O1, O2. lra.
Qed.
Lemma act_act_one : forall u y a b, 0 < u -> a <= b -> u * year_start y <= a -> b <= u * year_start (y + 1) ->
  act_act u (Z.to_nat (y - y + 1)) y a b = (IZR (b - a) / IZR (u * year_days y))%R.
Proof.
  intros u y a b Hu Hab Ha Hb. replace (y - y + 1) with 1 by lia. change (Z.to_nat 1) with 1%nat. cbn [act_act]. rewrite !jan1.
  replace (overlap a b (u * year_start y) (u * year_start (y + 1))) with (b - a) by (unfold overlap; lia). lra.
Qed.

Lemma dec31 : forall y, -9999 <= y <= 9999 -> from_calendar_date y 12 31 = Ret (year_start (y + 1) - 1).
Proof.
  intros y H. unfold from_calendar_date. change (month_days y 12) with 31.
  assert (A : (-9999 <=? y) = true) by (apply Z.leb_le; lia). assert (B : (y <=? 9999) = true) by (apply Z.leb_le; lia).
  rewrite A, B. cbn [andb Z.leb Z.compare Pos.compare Pos.compare_cont]. f_equal. unfold day_number.
  pose proof (month_last y) as L. change (month_days y 12) with 31 in L. rewrite year_next. lia.
Qed.

(** the length of the year *)
Definition len (y : Z) : R := IZR (year_days y).

(** The answer departs from Actual/Actual by 1/(length of the last year) -
    1/(length of the first year): the days are split at 31 December instead of
    1 January. *)
Theorem c94_act_act_discrepancy : forall a s e y1 y2, built a -> odt_ok s -> odt_ok e ->
  in_the_year y1 (od_day s) -> in_the_year y2 (od_day e) ->
  od_off s = od_off e -> od_ns s <= od_ns e -> od_day s <= od_day e ->
  exists x, year_fraction a s e ActActIsda = Ret (ROk x) /\
    within_f32 x (act_act_days y1 y2 (od_day s) (od_day e) + (1 / len y2 - 1 / len y1)) (IZR (y2 - y1 + 1) / 1048576).
Proof.
  intros a s e y1 y2 Ha Hs He Y1 Y2 Ho Hn Hd.
  rewrite built_year_fraction by exact Ha. unfold cal_year_fraction.
  assert (L : instant s <= instant e) by (unfold instant; rewrite Ho; unfold day_ns; nia).
  rewrite (proj2 (Z.ltb_ge _ _) L).
  pose proof (proj1 Hs) as Rs. pose proof (proj1 He) as Re. apply in_range_year in Rs. apply in_range_year in Re.
  pose proof Y1 as Q1. pose proof Y2 as Q2. apply year_of_day in Q1. apply year_of_day in Q2. rewrite Q1, Q2 in *.
  pose proof (date_year_mono _ _ Hd) as M. rewrite Q1, Q2 in M.
  pose proof (date_year_spec (od_day s)) as S1. pose proof (date_year_spec (od_day e)) as S2. rewrite Q1 in S1. rewrite Q2 in S2.
  pose proof (year_days_pos y1) as D1. pose proof (year_days_pos y2) as D2. pose proof (year_next y1) as N1. pose proof (year_next y2) as N2.
  unfold len. set (P := isda_part s e).
  destruct (Z.eq_dec y1 y2) as [Ey|Ny].
  - rewrite <- Ey in *. clear Ey. assert (W : whole_days (instant e - instant s) = od_day e - od_day s).
    { unfold whole_days. destruct Hs as (_ & s2 & _), He as (_ & e2 & _). unfold instant. rewrite Ho. unfold day_ns in *. Z.to_euclidean_division_equations. lia. }
    destruct (day_part (od_day e - od_day s) y1 ltac:(lia)) as (v & F & E & B1 & B2). rewrite leap_agrees in E, B1, B2.
    destruct (over_years_one P y1 (gdiv (gof_Z (od_day e - od_day s)) (days_in_year y1)) v) as (z & Zz & Fz).
    + unfold P, isda_part. rewrite Q1, Q2, Z.eqb_refl, W. reflexivity.
    + exact F.
    + apply Rabs_le. lra.
    + rewrite Zz. cbn [obind]. exists z. split; [reflexivity|]. exists v. split; [exact Fz|].
      unfold act_act_days. rewrite act_act_one by lia. rewrite !Z.mul_1_l. replace (y1 - y1 + 1) with 1 by lia.
      apply Rabs_le_inv in E. apply Rabs_le. lra.
  - assert (Hlt : y1 < y2) by lia.
    destruct (day_part (year_start (y1 + 1) - 1 - od_day s) y1 ltac:(lia)) as (v0 & F0 & E0 & A0 & B0).
    destruct (day_part (od_day e - (year_start y2 - 1)) y2 ltac:(lia)) as (v1 & F1 & E1 & A1 & B1).
    rewrite leap_agrees in E0, A0, B0, E1, A1, B1.
    assert (G0 : (0 <= IZR (year_start (y1 + 1) - 1 - od_day s) / IZR (year_days y1))%R).
    { apply Rmult_le_pos; [apply IZR_le; lia|left; apply Rinv_0_lt_compat; apply IZR_lt; lia]. }
    assert (G1 : (0 <= IZR (od_day e - (year_start y2 - 1)) / IZR (year_days y2))%R).
    { apply Rmult_le_pos; [apply IZR_le; lia|left; apply Rinv_0_lt_compat; apply IZR_lt; lia]. }
    assert (P0 : P y1 = Ret (gdiv (gof_Z (year_start (y1 + 1) - 1 - od_day s)) (days_in_year y1))).
    { unfold P, isda_part. rewrite Q1, Q2, Z.eqb_refl. rewrite (proj2 (Z.eqb_neq y2 y1)) by lia. rewrite dec31 by lia. reflexivity. }
    assert (P1 : P y2 = Ret (gdiv (gof_Z (od_day e - (year_start y2 - 1))) (days_in_year y2))).
    { unfold P, isda_part. rewrite Q1, Q2, Z.eqb_refl. rewrite (proj2 (Z.eqb_neq y2 y1)) by lia. rewrite dec31 by lia.
      cbn [obind]. replace (y2 - 1 + 1) with y2 by lia. reflexivity. }
    assert (Pm : forall y, y1 < y < y2 -> P y = Ret (gof_Z 1)).
    { intros y Hy. unfold P, isda_part. rewrite Q1, Q2. rewrite (proj2 (Z.eqb_neq y y1)), (proj2 (Z.eqb_neq y y2)) by lia. reflexivity. }
    assert (H0 : (Rabs (v0 - IZR (year_start (y1 + 1) - 1 - od_day s) / IZR (year_days y1)) <= 7 / 33554432)%R) by (apply Rle_trans with (1 := E0); lra).
    assert (H1 : (Rabs (v1 - IZR (od_day e - (year_start y2 - 1)) / IZR (year_days y2)) <= 7 / 33554432)%R) by (apply Rle_trans with (1 := E1); lra).
    destruct (over_years_close P y1 y2 _ _ v0 v1 _ _ Hlt ltac:(lia) P0 F0 H0 ltac:(lra) P1 F1 H1 ltac:(lra) Pm) as (z & v & Zz & Fz & Ez).
    rewrite Zz. cbn [obind]. exists z. split; [reflexivity|]. exists v. split; [exact Fz|].
      unfold act_act_days. rewrite act_act_years by lia. rewrite !Z.mul_1_l.
      assert (I1 : (IZR (year_start (y1 + 1) - 1 - od_day s) = IZR (year_start (y1 + 1) - od_day s) - 1)%R) by (rewrite <- minus_IZR; f_equal; lia).
      assert (I2 : (IZR (od_day e - (year_start y2 - 1)) = IZR (od_day e - year_start y2) + 1)%R) by (rewrite <- plus_IZR; f_equal; lia).
      rewrite I1, I2 in Ez. unfold Rdiv in *. rewrite Rmult_minus_distr_r, Rmult_plus_distr_r in Ez.
      match type of Ez with (Rabs ?u <= _)%R => match goal with |- (Rabs ?w <= _)%R => replace w with u by lra end end. exact Ez.
Qed.
Theorem c94_act_act_partial : forall a s e y1 y2, built a -> odt_ok s -> odt_ok e ->
  in_the_year y1 (od_day s) -> in_the_year y2 (od_day e) -> (leap y1 <-> leap y2) ->
  od_off s = od_off e -> od_ns s <= od_ns e -> od_day s <= od_day e ->
  exists x, year_fraction a s e ActActIsda = Ret (ROk x) /\
    within_f32 x (act_act_days y1 y2 (od_day s) (od_day e)) (IZR (y2 - y1 + 1) / 1048576).
Proof.
  intros a s e y1 y2 Ha Hs He Y1 Y2 Hl Ho Hn Hd.
  destruct (c94_act_act_discrepancy a s e y1 y2 Ha Hs He Y1 Y2 Ho Hn Hd) as (x & X & v & F & E). exists x. split; [exact X|].
  exists v. split; [exact F|]. assert (Q : year_days y1 = year_days y2).
  { unfold year_days. replace (leapb y1) with (leapb y2); [reflexivity|]. apply eq_true_iff_eq. rewrite !leapb_leap. tauto. }
  unfold len in E. rewrite Q in E. replace (1 / IZR (year_days y2) - 1 / IZR (year_days y2))%R with 0%R in E by lra.
  rewrite Rplus_0_r in E. exact E.
Qed.
(** 31 December 2023 to 1 January 2024 is one day of a year of 365 days; the
    answer is 1/366 *)
Theorem c94_act_act_refuted : let s := midnight 2023 12 31 0 in let e := midnight 2024 1 1 0 in
  (act_act_days 2023 2024 (od_day s) (od_day e) = 1 / 365)%R /\
  exists x, year_fraction (One NullCalendar) s e ActActIsda = Ret (ROk x) /\
    within_f32 x (1 / 366) (2 / 1048576) /\ ~ within_f32 x (1 / 365) (5 / 1048576).
Proof.
  cbv zeta. set (s := midnight 2023 12 31 0). set (e := midnight 2024 1 1 0).
  assert (A : act_act_days 2023 2024 (od_day s) (od_day e) = (1 / 365)%R).
  { unfold act_act_days, s, e, midnight. cbn [od_day]. rewrite act_act_years; [|lia|lia|split; apply Z.leb_le; reflexivity|split; apply Z.leb_le; reflexivity].
    change (1 * year_start (2023 + 1) - day_number 2023 12 31) with 1. change (day_number 2024 1 1 - 1 * year_start 2024) with 0.
    change (2024 - 2023 - 1) with 0. change (1 * year_days 2023) with 365. lra. }
  split; [exact A|].
  destruct (c94_act_act_discrepancy (One NullCalendar) s e 2023 2024) as (x & X & v & F & E).
  { discriminate. }
  { unfold odt_ok, s, midnight. cbn [od_day od_ns od_off]. split; [reflexivity|]. unfold day_ns. lia. }
  { unfold odt_ok, e, midnight. cbn [od_day od_ns od_off]. split; [reflexivity|]. unfold day_ns. lia. }
  { split; apply Z.leb_le; reflexivity. }
  { split; apply Z.leb_le; reflexivity. }
  { reflexivity. }
  { apply Z.leb_le; reflexivity. }
  { apply Z.leb_le; reflexivity. }
  exists x. split; [exact X|]. rewrite A in E. unfold len in E. change (year_days 2024) with 366 in E. change (year_days 2023) with 365 in E.
  change (2024 - 2023 + 1) with 2 in E. split.
  - exists v. split; [exact F|]. apply Rabs_le_inv in E. apply Rabs_le. lra.
  - intros (w & G & B). pose proof (fin_fun _ _ _ _ _ F G) as <-. apply Rabs_le_inv in E. apply Rabs_le_inv in B. lra.
Qed.
Example c94_hypotheses_met : in_the_year 2021 (od_day (midnight 2021 7 4 0)) /\ in_the_year 2023 (od_day (midnight 2023 5 6 0)) /\
  (leap 2021 <-> leap 2023) /\ od_day (midnight 2021 7 4 0) <= od_day (midnight 2023 5 6 0).
Proof.
  split; [split; apply Z.leb_le; reflexivity|]. split; [split; apply Z.leb_le; reflexivity|].
  split; [|apply Z.leb_le; reflexivity]. rewrite <- !leapb_leap. vm_compute. tauto.
Qed.

(** the exact value of Actual/Actual as a difference of positions *)
Lemma act_act_closed : forall u y1 y2 a b, 0 < u -> y1 <= y2 -> a <= b ->
  u * year_start y1 <= a <= u * year_start (y1 + 1) -> u * year_start y2 <= b <= u * year_start (y2 + 1) ->
  act_act u (Z.to_nat (y2 - y1 + 1)) y1 a b =
  (IZR (y2 - y1) + IZR (b - u * year_start y2) / IZR (u * year_days y2) - IZR (a - u * year_start y1) / IZR (u * year_days y1))%R.
Proof.
  intros u y1 y2 a b Hu Hy Hab Ha Hb. pose proof (year_days_pos y1) as D1. pose proof (year_days_pos y2) as D2.
  destruct (Z.eq_dec y1 y2) as [<-|N].
  - rewrite act_act_one by lia. replace (y1 - y1) with 0 by lia.
    replace (b - a) with ((b - u * year_start y1) - (a - u * year_start y1)) by lia. rewrite (minus_IZR (b - _)). unfold Rdiv. ring.
  - rewrite act_act_years by lia.
    replace (u * year_start (y1 + 1) - a) with (u * year_days y1 - (a - u * year_start y1)) by (rewrite year_next; ring).
    rewrite (minus_IZR (u * year_days y1)). rewrite (minus_IZR (y2 - y1) 1).
    assert (IZR (u * year_days y1) <> 0)%R by (apply not_0_IZR; nia). field. split; apply not_0_IZR; nia.
Qed.

Lemma days_of_div : forall ns y, (days_of ns / IZR (year_days y) = IZR ns / IZR (day_ns * year_days y))%R.
Proof.
  intros ns y. unfold days_of. rewrite mult_IZR. pose proof (year_days_pos y). field.
  split; apply not_0_IZR; [lia|discriminate].
Qed.

Lemma time_value : forall s e y1 y2, odt_ok s -> odt_ok e -> in_the_year y1 (od_day s) -> in_the_year y2 (od_day e) ->
  od_off s = od_off e -> y1 <= y2 ->
  exists x, get_time_difference s e = Ret x /\
    within_f32 x (IZR (y2 - y1) + IZR (clock e - day_ns * year_start y2) / IZR (day_ns * year_days y2)
                  - IZR (clock s - day_ns * year_start y1) / IZR (day_ns * year_days y1) + (1 / len y2 - 1 / len y1))
      (IZR (y2 - y1 + 1) / 1048576).
Proof.
  intros s e y1 y2 Hs He Y1 Y2 Ho M.
  pose proof (proj1 Hs) as Rs. pose proof (proj1 He) as Re. apply in_range_year in Rs. apply in_range_year in Re.
  pose proof Y1 as Q1. pose proof Y2 as Q2. apply year_of_day in Q1. apply year_of_day in Q2.
  unfold get_time_difference. rewrite Q1, Q2 in *.
  pose proof (date_year_spec (od_day s)) as S1. pose proof (date_year_spec (od_day e)) as S2. rewrite Q1 in S1. rewrite Q2 in S2.
  pose proof (year_days_pos y1) as D1. pose proof (year_days_pos y2) as D2. pose proof (year_next y1) as N1. pose proof (year_next y2) as N2.
  destruct Hs as (_ & s2 & _), He as (_ & e2 & _).
  unfold len. set (P := time_part s e).
  destruct (Z.eq_dec y1 y2) as [Ey|Ny].
  - rewrite <- Ey in *. clear Ey.
    assert (I : instant e - instant s = clock e - clock s) by (unfold instant, clock; rewrite Ho; lia).
    destruct (ns_part (clock e - clock s) y1) as (v & F & E & B1).
    { unfold clock, day_ns in *. nia. }
    rewrite leap_agrees, days_of_div in E, B1.
    assert (Bd : (-2 <= IZR (clock e - clock s) / IZR (day_ns * year_days y1) <= 2)%R).
    { assert (Z0 : (0 < IZR (day_ns * year_days y1))%R) by (apply IZR_lt; unfold day_ns; lia).
      split; apply Rmult_le_reg_r with (1 := Z0); unfold Rdiv; rewrite Rmult_assoc, Rinv_l, Rmult_1_r by lra; rewrite <- mult_IZR; apply IZR_le;
        unfold clock, day_ns in *; nia. }
    destruct (over_years_one P y1 (gdiv (days_f32 (clock e - clock s)) (days_in_year y1)) v) as (z & Zz & Fz).
    + unfold P, time_part. rewrite Q1, Q2, Z.eqb_refl, I. reflexivity.
    + exact F.
    + apply Rabs_le. lra.
    + exists z. split; [exact Zz|]. exists v. split; [exact Fz|]. replace (y1 - y1) with 0 by lia. change (0 + 1) with 1.
      replace (clock e - clock s) with ((clock e - day_ns * year_start y1) - (clock s - day_ns * year_start y1)) in E by lia.
      rewrite (minus_IZR (clock e - _)) in E. unfold Rdiv in *. rewrite Rmult_minus_distr_r in E.
      apply Rabs_le_inv in E. apply Rabs_le. lra.
  - assert (Hlt : y1 < y2) by lia.
    set (n0 := day_ns * (year_start (y1 + 1) - 1) - clock s). set (n1 := clock e - day_ns * (year_start y2 - 1)).
    assert (I0 : instant (at_midnight (year_start (y1 + 1) - 1) (od_off s)) - instant s = n0)
      by (unfold n0, instant, clock, at_midnight; cbn [od_day od_ns od_off]; lia).
    assert (I1 : instant e - instant (at_midnight (year_start y2 - 1) (od_off s)) = n1)
      by (unfold n1, instant, clock, at_midnight; cbn [od_day od_ns od_off]; rewrite Ho; lia).
    assert (N0 : - day_ns <= n0 <= day_ns * year_days y1) by (unfold n0, clock, day_ns in *; nia).
    assert (N1' : 0 <= n1 <= day_ns * (year_days y2 + 1)) by (unfold n1, clock, day_ns in *; nia).
    destruct (ns_part n0 y1 ltac:(unfold day_ns in *; lia)) as (v0 & F0 & E0 & A0).
    destruct (ns_part n1 y2 ltac:(unfold day_ns in *; lia)) as (v1 & F1 & E1 & A1).
    rewrite leap_agrees, days_of_div in E0, A0, E1, A1.
    assert (G : forall n y, - day_ns <= n <= day_ns * (year_days y + 1) -> (-9/1000 <= IZR n / IZR (day_ns * year_days y) <= 1009/1000)%R).
    { intros n y Hn. pose proof (year_days_pos y) as Dy. assert (Z0 : (0 < IZR (day_ns * year_days y))%R) by (apply IZR_lt; unfold day_ns; lia).
      split; apply Rmult_le_reg_r with (1 := Z0); unfold Rdiv; rewrite (Rmult_assoc (IZR n)), Rinv_l, Rmult_1_r by lra.
      - replace (-9 * / 1000 * IZR (day_ns * year_days y))%R with (IZR (-9 * (day_ns * year_days y)) * / 1000)%R by (rewrite mult_IZR; lra).
        apply Rmult_le_reg_r with 1000%R; [lra|]. rewrite Rmult_assoc, Rinv_l, Rmult_1_r by lra. rewrite <- mult_IZR. apply IZR_le. unfold day_ns in *. lia.
      - replace (1009 * / 1000 * IZR (day_ns * year_days y))%R with (IZR (1009 * (day_ns * year_days y)) * / 1000)%R by (rewrite mult_IZR; lra).
        apply Rmult_le_reg_r with 1000%R; [lra|]. rewrite (Rmult_assoc _ (/ 1000)), Rinv_l, Rmult_1_r by lra. rewrite <- mult_IZR. apply IZR_le. unfold day_ns in *. lia. }
    pose proof (G n0 y1 ltac:(unfold day_ns in *; lia)) as G0. pose proof (G n1 y2 ltac:(unfold day_ns in *; lia)) as G1.
    assert (P0 : P y1 = Ret (gdiv (days_f32 n0) (days_in_year y1))).
    { unfold P, time_part. rewrite Q1, Q2, Z.eqb_refl. rewrite (proj2 (Z.eqb_neq y2 y1)) by lia. rewrite dec31 by lia. cbn [obind]. rewrite I0. reflexivity. }
    assert (P1 : P y2 = Ret (gdiv (days_f32 n1) (days_in_year y2))).
    { unfold P, time_part. rewrite Q1, Q2, Z.eqb_refl. rewrite (proj2 (Z.eqb_neq y2 y1)) by lia. rewrite dec31 by lia.
      cbn [obind]. replace (y2 - 1 + 1) with y2 by lia. rewrite I1. reflexivity. }
    assert (Pm : forall y, y1 < y < y2 -> P y = Ret (gof_Z 1)).
    { intros y Hy. unfold P, time_part. rewrite Q1, Q2. rewrite (proj2 (Z.eqb_neq y y1)), (proj2 (Z.eqb_neq y y2)) by lia. reflexivity. }
    assert (H0 : (Rabs (v0 - IZR n0 / IZR (day_ns * year_days y1)) <= 7 / 33554432)%R) by (apply Rle_trans with (1 := E0); lra).
    assert (H1 : (Rabs (v1 - IZR n1 / IZR (day_ns * year_days y2)) <= 7 / 33554432)%R) by (apply Rle_trans with (1 := E1); lra).
    destruct (over_years_close P y1 y2 _ _ v0 v1 _ _ Hlt ltac:(lia) P0 F0 H0 ltac:(lra) P1 F1 H1 ltac:(lra) Pm) as (z & v & Zz & Fz & Ez).
    exists z. split; [exact Zz|]. exists v. split; [exact Fz|].
    match type of Ez with (Rabs ?u <= _)%R => match goal with |- (Rabs ?w <= _)%R => replace w with u; [exact Ez|] end end.
    assert (L0 : n0 = day_ns * year_days y1 - day_ns - (clock s - day_ns * year_start y1)) by (unfold n0; rewrite N1; ring).
    assert (L1 : n1 = clock e - day_ns * year_start y2 + day_ns) by (unfold n1; ring).
    rewrite L0, L1. rewrite (minus_IZR (day_ns * year_days y1 - day_ns)), (minus_IZR (day_ns * year_days y1)), (plus_IZR (clock e - _)).
    rewrite (minus_IZR (y2 - y1) 1), !(mult_IZR day_ns (year_days _)).
    assert (IZR day_ns <> 0)%R by (apply not_0_IZR; discriminate).
    assert (IZR (year_days y1) <> 0)%R by (apply not_0_IZR; lia). assert (IZR (year_days y2) <> 0)%R by (apply not_0_IZR; lia).
    field. repeat split; assumption.
Qed.

(** clock readings of a date lie in its year *)
Lemma clock_in_year : forall d y, odt_ok d -> in_the_year y (od_day d) -> day_ns * year_start y <= clock d <= day_ns * year_start (y + 1).
Proof.
  intros d y (_ & H & _) Y. apply year_of_day in Y. pose proof (date_year_spec (od_day d)) as S1. rewrite Y in S1.
  unfold clock. unfold day_ns in *. nia.
Qed.
Lemma later_year : forall s e y1 y2, in_the_year y1 (od_day s) -> in_the_year y2 (od_day e) -> odt_ok s -> odt_ok e ->
  od_off s = od_off e -> instant s <= instant e -> y1 <= y2 /\ clock s <= clock e.
Proof.
  intros s e y1 y2 Y1 Y2 (_ & s2 & _) (_ & e2 & _) Ho H. apply year_of_day in Y1. apply year_of_day in Y2. subst. split.
  - apply date_year_mono. unfold instant in H. rewrite Ho in H. unfold day_ns in *. nia.
  - unfold clock. unfold instant in H. rewrite Ho in H. lia.
Qed.

Theorem c95_time_discrepancy : forall s e y1 y2, odt_ok s -> odt_ok e -> in_the_year y1 (od_day s) -> in_the_year y2 (od_day e) ->
  od_off s = od_off e -> instant s <= instant e ->
  exists x, get_time_difference s e = Ret x /\
    within_f32 x (act_act_time y1 y2 s e + (1 / len y2 - 1 / len y1)) (IZR (y2 - y1 + 1) / 1048576).
Proof.
  intros s e y1 y2 Hs He Y1 Y2 Ho H. destruct (later_year s e y1 y2 Y1 Y2 Hs He Ho H) as [M C].
  destruct (time_value s e y1 y2 Hs He Y1 Y2 Ho M) as (x & X & W). exists x. split; [exact X|].
  unfold act_act_time. rewrite act_act_closed; [exact W|reflexivity|exact M|exact C|apply clock_in_year; assumption|apply clock_in_year; assumption].
Qed.
Theorem c95_time_partial : forall s e y1 y2, odt_ok s -> odt_ok e -> in_the_year y1 (od_day s) -> in_the_year y2 (od_day e) ->
  (leap y1 <-> leap y2) -> od_off s = od_off e -> instant s <= instant e ->
  exists x, get_time_difference s e = Ret x /\ within_f32 x (act_act_time y1 y2 s e) (IZR (y2 - y1 + 1) / 1048576).
Proof.
  intros s e y1 y2 Hs He Y1 Y2 Hl Ho H. destruct (c95_time_discrepancy s e y1 y2 Hs He Y1 Y2 Ho H) as (x & X & v & F & E).
  exists x. split; [exact X|]. exists v. split; [exact F|]. assert (Q : year_days y1 = year_days y2).
  { unfold year_days. replace (leapb y1) with (leapb y2); [reflexivity|]. apply eq_true_iff_eq. rewrite !leapb_leap. tauto. }
  unfold len in E. rewrite Q in E. replace (1 / IZR (year_days y2) - 1 / IZR (year_days y2))%R with 0%R in E by lra.
  rewrite Rplus_0_r in E. exact E.
Qed.
(** times add up: from [a] to [b] and from [b] to [c] is from [a] to [c] *)
Theorem c95_additive : forall a b c ya yb yc x y z, odt_ok a -> odt_ok b -> odt_ok c ->
  in_the_year ya (od_day a) -> in_the_year yb (od_day b) -> in_the_year yc (od_day c) ->
  od_off a = od_off b -> od_off b = od_off c -> ya <= yb <= yc ->
  get_time_difference a b = Ret x -> get_time_difference b c = Ret y -> get_time_difference a c = Ret z ->
  exists u v w, fin 24 128 x u /\ fin 24 128 y v /\ fin 24 128 z w /\ (Rabs (u + v - w) <= IZR (2 * (yc - ya) + 3) / 1048576)%R.
Proof.
  intros a b c ya yb yc x y z Ha Hb Hc Ya Yb Yc O1 O2 M X Y Zz.
  destruct (time_value a b ya yb Ha Hb Ya Yb O1 ltac:(lia)) as (x' & X' & u & Fu & Eu).
  destruct (time_value b c yb yc Hb Hc Yb Yc O2 ltac:(lia)) as (y' & Y' & v & Fv & Ev).
  destruct (time_value a c ya yc Ha Hc Ya Yc ltac:(congruence) ltac:(lia)) as (z' & Z' & w & Fw & Ew).
  rewrite X in X'. injection X' as <-. rewrite Y in Y'. injection Y' as <-. rewrite Zz in Z'. injection Z' as <-.
  exists u, v, w. repeat split; try apply Fu; try apply Fv; try apply Fw.
  apply Rabs_le_inv in Eu. apply Rabs_le_inv in Ev. apply Rabs_le_inv in Ew.
  replace (2 * (yc - ya) + 3) with ((yb - ya + 1) + (yc - yb + 1) + (yc - ya + 1)) by lia.
  rewrite !(plus_IZR (_ + _)) in *. rewrite !minus_IZR in *. apply Rabs_le. lra.
Qed.
(** one minute across New Year 2024 takes a negative time *)
Theorem c95_negative_time_refuted : exists s e x, odt_ok s /\ odt_ok e /\ od_off s = od_off e /\ instant s < instant e /\
  get_time_difference s e = Ret x /\ glt x gzero = true.
Proof.
  set (s := Odt (day_number 2023 12 31) 86340000000000 0). set (e := midnight 2024 1 1 0).
  assert (Hs : odt_ok s) by (unfold odt_ok, s; cbn [od_day od_ns od_off]; split; [reflexivity|]; unfold day_ns; lia).
  assert (He : odt_ok e) by (unfold odt_ok, e, midnight; cbn [od_day od_ns od_off]; split; [reflexivity|]; unfold day_ns; lia).
  assert (H : instant s < instant e) by reflexivity.
  destruct (c95_time_discrepancy s e 2023 2024 Hs He) as (x & X & v & F & E).
  { split; apply Z.leb_le; reflexivity. }
  { split; apply Z.leb_le; reflexivity. }
  { reflexivity. }
  { lia. }
  exists s, e, x. repeat split; try apply Hs; try apply He; try exact H; try exact X.
  apply (fin_lt 24 128 x gzero v 0 F (fin_zero _ _)).
  assert (A : act_act_time 2023 2024 s e = (60 / 31536000)%R).
  { unfold act_act_time. rewrite act_act_years; [|reflexivity|reflexivity|split; apply Z.leb_le; reflexivity|split; apply Z.leb_le; reflexivity].
    change (day_ns * year_start (2023 + 1) - clock s) with 60000000000. change (clock e - day_ns * year_start 2024) with 0.
    change (2024 - 2023 - 1) with 0. change (day_ns * year_days 2023) with 31536000000000000. lra. }
  rewrite A in E. unfold len in E. change (year_days 2024) with 366 in E. change (year_days 2023) with 365 in E.
  change (2024 - 2023 + 1) with 2 in E. apply Rabs_le_inv in E. lra.
Qed.
(** and from any date to one of an earlier year it is zero, however long ago *)
Theorem c95_earlier_year_refuted : forall s e y1 y2, in_the_year y1 (od_day s) -> in_the_year y2 (od_day e) -> y2 < y1 ->
  get_time_difference s e = Ret gzero.
Proof.
  intros s e y1 y2 Y1 Y2 H. apply year_of_day in Y1. apply year_of_day in Y2. unfold get_time_difference, over_years. rewrite Y1, Y2.
  replace (Z.to_nat (y2 - y1 + 1)) with 0%nat by lia. reflexivity.
Qed.
Example c95_hypotheses_met : odt_ok (midnight 2024 5 6 9) /\
  in_the_year 2021 (od_day (midnight 2021 7 4 0)) /\ in_the_year 2023 (od_day (midnight 2023 5 6 0)) /\
  (leap 2021 <-> leap 2023) /\ instant (midnight 2021 7 4 0) <= instant (midnight 2023 5 6 0).
Proof.
  split; [apply (away_example 0); lia|].
  split; [split; apply Z.leb_le; reflexivity|]. split; [split; apply Z.leb_le; reflexivity|].
  split; [|apply Z.leb_le; reflexivity]. rewrite <- !leapb_leap. vm_compute. tauto.
Qed.
Print Assumptions c92_actual.
Print Assumptions c92_monotone.
Print Assumptions c93_thirty360_partial.
Print Assumptions c93_thirty360_refuted.
Print Assumptions c93_street_partial.
Print Assumptions c93_street_refuted.
Print Assumptions c94_act_act_discrepancy.
Print Assumptions c94_act_act_partial.
Print Assumptions c94_act_act_refuted.
Print Assumptions c95_time_discrepancy.
Print Assumptions c95_time_partial.
Print Assumptions c95_additive.
Print Assumptions c95_negative_time_refuted.
Print Assumptions c95_earlier_year_refuted.
