(** QCalRules.v -- the United States rules are the published holidays. *)
From Coq Require Import ZArith List Bool Lia.
From Verif Require Import Base CivilSpec QDateModel QDateProofs QCalTables QCalModel QCalProofs QCalSpec QCalAdjust QCalAdjust2.
Import ListNotations.
Open Scope Z_scope.

Lemma date_is : forall n y m d, valid_date y m d ->
  (n = day_number y m d <-> date_year n = y /\ date_month n = m /\ date_day n = d).
Proof.
  intros n y m d V. split.
  - intros ->. exact (fields_of_date y m d V).
  - intros (<- & <- & <-). symmetry. apply date_fields.
Qed.

Lemma weekday_range : forall n, 0 <= weekday n <= 6.
Proof. intro n. unfold weekday. Z.to_euclidean_division_equations; lia. Qed.

(** moving within the month *)
Lemma in_month_shift : forall n k y m, date_year n = y -> date_month n = m ->
  (in_month y m (n + k) <-> 1 <= date_day n + k <= month_days y m).
Proof.
  intros n k y m <- <-. destruct (date_fields n) as [_ E]. unfold in_month, day_number in *. lia.
Qed.

Lemma nth_weekday_iff : forall k w y m n, 1 <= m <= 12 -> 1 <= k ->
  (nth_weekday k w y m n <->
   weekday n = w /\ date_year n = y /\ date_month n = m /\ 7 * (k - 1) < date_day n <= 7 * k).
Proof.
  intros k w y m n Hm Hk. unfold nth_weekday. rewrite (in_month_date y m n Hm).
  assert (G : date_year n = y /\ date_month n = m ->
    ((in_month y m (n - 7 * (k - 1)) /\ ~ in_month y m (n - 7 * k)) <-> 7 * (k - 1) < date_day n <= 7 * k)).
  { intros [A B]. replace (n - 7 * (k - 1)) with (n + - (7 * (k - 1))) by lia. replace (n - 7 * k) with (n + - (7 * k)) by lia.
    rewrite !in_month_shift by assumption. destruct (date_month_spec n) as [_ D]. rewrite A, B in D. lia. }
  tauto.
Qed.

Lemma last_weekday_iff : forall w y m n, 1 <= m <= 12 ->
  (last_weekday w y m n <-> weekday n = w /\ date_year n = y /\ date_month n = m /\ month_days y m - 7 < date_day n).
Proof.
  intros w y m n Hm. unfold last_weekday. rewrite (in_month_date y m n Hm).
  assert (G : date_year n = y /\ date_month n = m -> (~ in_month y m (n + 7) <-> month_days y m - 7 < date_day n)).
  { intros [A B]. rewrite in_month_shift by assumption. destruct (date_month_spec n) as [_ D]. rewrite A, B in D. lia. }
  tauto.
Qed.

Lemma day_step : forall y m d k, day_number y m (d + k) = day_number y m d + k.
Proof. intros. unfold day_number. lia. Qed.

Lemma observed_iff : forall y m d n, 1 <= m <= 12 -> 2 <= d -> d + 1 <= month_days y m -> weekday n < 5 ->
  (n = observed (day_number y m d) <->
   date_year n = y /\ date_month n = m /\
   (date_day n = d \/ (date_day n = d + 1 /\ weekday n = 0) \/ (date_day n = d - 1 /\ weekday n = 4))).
Proof.
  intros y m d n Hm H1 H2 Hw.
  assert (V : forall e, d - 1 <= e <= d + 1 -> valid_date y m e) by (intros; split; lia).
  pose proof (date_is n y m d (V d ltac:(lia))) as D0.
  pose proof (date_is n y m (d + 1) (V (d + 1) ltac:(lia))) as D1.
  pose proof (date_is n y m (d - 1) (V (d - 1) ltac:(lia))) as D2.
  rewrite day_step in D1. replace (d - 1) with (d + -1) in D2 at 1 by lia. rewrite day_step in D2.
  set (F := day_number y m d) in *. clearbody F.
  assert (X : n = observed F <-> n = F \/ (n = F + 1 /\ weekday n = 0) \/ (n = F + -1 /\ weekday n = 4)).
  { unfold observed, Saturday, Sunday, weekday in *.
    destruct (Z.eqb_spec ((F + 3) mod 7) 5); [|destruct (Z.eqb_spec ((F + 3) mod 7) 6)].
    - split; [intros ->; right; right; split; [lia|]|]. { Z.to_euclidean_division_equations; lia. }
      intros [->|[[-> Q]|[-> Q]]]; [lia| |lia]. Z.to_euclidean_division_equations; lia.
    - split; [intros ->; right; left; split; [lia|]|]. { Z.to_euclidean_division_equations; lia. }
      intros [->|[[-> Q]|[-> Q]]]; [lia|lia|]. Z.to_euclidean_division_equations; lia.
    - split; [intros ->; left; lia|]. intros [->|[[-> Q]|[-> Q]]]; [lia| |]; Z.to_euclidean_division_equations; lia. }
  rewrite X. tauto.
Qed.

Lemma observed_monday_iff : forall y m d n, 1 <= m <= 12 -> 1 <= d -> d + 1 <= month_days y m -> weekday n < 5 ->
  (n = observed_monday (day_number y m d) <->
   date_year n = y /\ date_month n = m /\ (date_day n = d \/ (date_day n = d + 1 /\ weekday n = 0))).
Proof.
  intros y m d n Hm H1 H2 Hw.
  assert (V : forall e, d <= e <= d + 1 -> valid_date y m e) by (intros; split; lia).
  pose proof (date_is n y m d (V d ltac:(lia))) as D0.
  pose proof (date_is n y m (d + 1) (V (d + 1) ltac:(lia))) as D1. rewrite day_step in D1.
  set (F := day_number y m d) in *. clearbody F.
  assert (X : n = observed_monday F <-> n = F \/ (n = F + 1 /\ weekday n = 0)).
  { unfold observed_monday, Sunday, weekday in *. destruct (Z.eqb_spec ((F + 3) mod 7) 6).
    - split; [intros ->; right; split; [lia|]|]. { Z.to_euclidean_division_equations; lia. }
      intros [->|[-> Q]]; [|lia]. lia.
    - split; [intros ->; left; lia|]. intros [->|[-> Q]]; [lia|]. Z.to_euclidean_division_equations; lia. }
  rewrite X. tauto.
Qed.

(** New year's day, whose Saturday falls in the year before *)
Lemma new_year_iff : forall n, weekday n < 5 ->
  ((exists y, n = observed (day_number y 1 1)) <->
   (date_month n = 1 /\ (date_day n = 1 \/ (date_day n = 2 /\ weekday n = 0))) \/
   (date_month n = 12 /\ date_day n = 31 /\ weekday n = 4)).
Proof.
  intros n Hw.
  assert (V1 : forall y, valid_date y 1 1) by (intro; split; [lia|change (month_days y 1) with 31; lia]).
  assert (V2 : forall y, valid_date y 1 2) by (intro; split; [lia|change (month_days y 1) with 31; lia]).
  assert (V3 : forall y, valid_date y 12 31) by (intro; split; [lia|change (month_days y 12) with 31; lia]).
  assert (N : forall y, day_number y 12 31 = day_number (y + 1) 1 1 - 1).
  { intro y. unfold day_number. pose proof (month_last y) as L. change (month_days y 12) with 31 in L.
    rewrite year_next, month_start_1. lia. }
  assert (N2 : forall y, day_number y 1 2 = day_number y 1 1 + 1) by (intro; unfold day_number; lia).
  assert (W : forall F, n = observed F <-> (n = F \/ (n = F + 1 /\ weekday n = 0) \/ (n = F - 1 /\ weekday n = 4))).
  { intro F. unfold observed, Saturday, Sunday, weekday in *.
    destruct (Z.eqb_spec ((F + 3) mod 7) 5); [|destruct (Z.eqb_spec ((F + 3) mod 7) 6)].
    - split; [intros ->; right; right; split; [lia|]|]. { Z.to_euclidean_division_equations; lia. }
      intros [->|[[-> Q]|[-> Q]]]; [lia| |lia]. Z.to_euclidean_division_equations; lia.
    - split; [intros ->; right; left; split; [lia|]|]. { Z.to_euclidean_division_equations; lia. }
      intros [->|[[-> Q]|[-> Q]]]; [lia|lia|]. Z.to_euclidean_division_equations; lia.
    - split; [intros ->; left; lia|]. intros [->|[[-> Q]|[-> Q]]]; [lia| |]; Z.to_euclidean_division_equations; lia. }
  split.
  - intros (y & E). apply W in E. destruct E as [E|[[E Q]|[E Q]]].
    + apply date_is in E; [|apply V1]. tauto.
    + rewrite <- N2 in E. apply date_is in E; [|apply V2]. tauto.
    + replace y with (y - 1 + 1) in E by lia. rewrite <- N in E. apply date_is in E; [|apply V3]. tauto.
  - intros [[A [B|[B C]]]|[A [B C]]].
    + exists (date_year n). apply W. left. apply date_is; [apply V1|auto].
    + exists (date_year n). apply W. right. left. rewrite <- N2. split; [apply date_is; [apply V2|auto]|exact C].
    + exists (date_year n + 1). apply W. right. right. rewrite <- N. split; [apply date_is; [apply V3|auto]|exact C].
Qed.

Lemma weekend_iff : forall n, weekend (unpack n) = true <-> weekend_day n.
Proof.
  intro n. rewrite unpack_fields. unfold weekend, weekend_day. cbn [f_weekday].
  rewrite orb_true_iff, !Z.eqb_eq. reflexivity.
Qed.

Lemma no_edits : forall ty n, holiday_on (new_united_states ty) n = true <->
  weekend_day n \/ (weekday n < 5 /\ us_is_holiday ty (unpack n) = true).
Proof.
  intros ty n. rewrite <- weekend_iff. unfold holiday_on. cbn [is_removed_holiday is_added_holiday is_base_holiday new_united_states existsb].
  pose proof (weekday_range n). destruct (weekend (unpack n)) eqn:W; [tauto|].
  assert (weekday n < 5).
  { assert (~ weekend_day n) by (rewrite <- weekend_iff; congruence). unfold weekend_day, Saturday, Sunday in *. lia. }
  destruct (us_is_holiday ty (unpack n)); split; intro X; try tauto; try discriminate; destruct X as [X|[_ X]]; discriminate.
Qed.

Ltac bools := repeat (progress (rewrite ?andb_true_iff, ?orb_true_iff, ?Z.eqb_eq, ?Z.leb_le, ?Z.ltb_lt in *)).
Ltac fields_in := rewrite unpack_fields; cbn [f_date f_year f_month f_day f_weekday f_ordinal];
  change (date_weekday ?n) with (weekday n).

Ltac bools_in H := repeat (progress (rewrite ?andb_true_iff, ?orb_true_iff, ?Z.eqb_eq, ?Z.leb_le, ?Z.ltb_lt in H)).

Section Rules.
Variable n : Z.
Hypothesis weekday_n : weekday n < 5.

(** a date rule holding in the year of the day *)
Lemma this_year : forall P : Z -> Prop, (forall y, P y -> date_year n = y) -> ((exists y, P y) <-> P (date_year n)).
Proof. intros P H. split; [intros (y & X); rewrite (H y X); exact X|intro X; exists (date_year n); exact X]. Qed.

Lemma washington_iff : (exists y, washington_birthday y n) <-> is_washington_birthday (unpack n) = true.
Proof.
  assert (L : forall y, 28 <= month_days y 2) by (intro y; pose proof (month_days_range y 2); lia).
  rewrite this_year.
  2: { intros y. unfold washington_birthday. specialize (L y). destruct (Z.ltb_spec y 1971).
       - rewrite observed_iff by lia. tauto.
       - rewrite nth_weekday_iff by lia. tauto. }
  unfold is_washington_birthday, washington_birthday, within. fields_in. specialize (L (date_year n)).
  destruct (Z.ltb_spec (date_year n) 1971) as [Y|Y].
  - replace (1971 <=? date_year n) with false by (symmetry; apply Z.leb_gt; lia).
    rewrite observed_iff by lia. bools. unfold Mon, Fri. lia.
  - replace (1971 <=? date_year n) with true by (symmetry; apply Z.leb_le; lia).
    rewrite nth_weekday_iff by lia. bools. unfold Monday, Mon. lia.
Qed.

Lemma memorial_iff : (exists y, memorial_day y n) <-> is_memorial_day (unpack n) = true.
Proof.
  assert (L : forall y, month_days y 5 = 31) by reflexivity.
  rewrite this_year.
  2: { intros y. unfold memorial_day. specialize (L y). destruct (Z.ltb_spec y 1971).
       - rewrite observed_iff by lia. tauto.
       - rewrite last_weekday_iff by lia. tauto. }
  unfold is_memorial_day, memorial_day. fields_in. specialize (L (date_year n)).
  destruct (Z.ltb_spec (date_year n) 1971) as [Y|Y].
  - replace (1971 <=? date_year n) with false by (symmetry; apply Z.leb_gt; lia).
    rewrite observed_iff by lia. bools. unfold Mon, Fri. lia.
  - replace (1971 <=? date_year n) with true by (symmetry; apply Z.leb_le; lia).
    rewrite last_weekday_iff by lia. bools. unfold Monday, Mon. lia.
Qed.

Lemma labor_iff : (exists y, labor_day y n) <-> is_labor_day (unpack n) = true.
Proof.
  rewrite this_year by (intros y; unfold labor_day; rewrite nth_weekday_iff by lia; tauto).
  unfold is_labor_day, labor_day. fields_in. rewrite nth_weekday_iff by lia. bools.
  destruct (date_month_spec n). unfold Monday, Mon. lia.
Qed.

Lemma columbus_iff : (exists y, columbus_day y n) <-> is_columbus_day (unpack n) = true.
Proof.
  rewrite this_year by (intros y; unfold columbus_day; rewrite nth_weekday_iff by lia; tauto).
  unfold is_columbus_day, columbus_day, within. fields_in. rewrite nth_weekday_iff by lia. bools.
  unfold Monday, Mon. lia.
Qed.

Lemma veterans_iff : (exists y, veterans_day y n) <-> is_veterans_day_no_saturday (unpack n) = true.
Proof.
  assert (L : forall y, month_days y 11 = 30) by reflexivity.
  rewrite this_year.
  2: { intros y. unfold veterans_day. specialize (L y). destruct (_ && _).
       - rewrite nth_weekday_iff by lia. tauto.
       - rewrite observed_monday_iff by lia. tauto. }
  unfold is_veterans_day_no_saturday, veterans_day, within. fields_in. specialize (L (date_year n)).
  destruct (Z.leb_spec 1971 (date_year n)), (Z.leb_spec (date_year n) 1977); cbn [andb];
  destruct (Z.leb_spec (date_year n) 1970), (Z.leb_spec 1978 (date_year n)); cbn [orb]; try lia;
    rewrite ?nth_weekday_iff, ?observed_monday_iff by lia; bools; unfold Monday, Mon; lia.
Qed.

Lemma thanksgiving_iff : (exists y, thanksgiving y n) <->
  date_month n = 11 /\ 22 <= date_day n <= 28 /\ weekday n = 3.
Proof.
  rewrite this_year by (intros y; unfold thanksgiving; rewrite nth_weekday_iff by lia; tauto).
  unfold thanksgiving. rewrite nth_weekday_iff by lia. unfold Thursday. lia.
Qed.

Lemma king_iff : (exists y, king_day 1983 y n) <->
  date_month n = 1 /\ 15 <= date_day n <= 21 /\ weekday n = 0 /\ 1983 <= date_year n.
Proof.
  rewrite this_year by (intros y; unfold king_day; rewrite nth_weekday_iff by lia; tauto).
  unfold king_day. rewrite nth_weekday_iff by lia. unfold Monday. lia.
Qed.

Lemma fixed_iff : forall (from : Z -> Prop) m d, 1 <= m <= 12 -> 2 <= d -> d + 1 <= 28 ->
  (exists y, from y /\ n = observed (day_number y m d)) <->
  from (date_year n) /\ date_month n = m /\ (date_day n = d \/ (date_day n = d + 1 /\ weekday n = 0) \/ (date_day n = d - 1 /\ weekday n = 4)).
Proof.
  intros from m d Hm H1 H2.
  assert (L : forall y, 28 <= month_days y m) by (intro y; pose proof (month_days_range y m); lia).
  rewrite this_year.
  - rewrite observed_iff by (try lia; specialize (L (date_year n)); lia). tauto.
  - intros y. rewrite observed_iff by (try lia; specialize (L y); lia). tauto.
Qed.

Lemma fixed_monday_iff : forall (from : Z -> Prop) m d, 1 <= m <= 12 -> 1 <= d -> d + 1 <= 28 ->
  (exists y, from y /\ n = observed_monday (day_number y m d)) <->
  from (date_year n) /\ date_month n = m /\ (date_day n = d \/ (date_day n = d + 1 /\ weekday n = 0)).
Proof.
  intros from m d Hm H1 H2.
  assert (L : forall y, 28 <= month_days y m) by (intro y; pose proof (month_days_range y m); lia).
  rewrite this_year.
  - rewrite observed_monday_iff by (try lia; specialize (L (date_year n)); lia). tauto.
  - intros y. rewrite observed_monday_iff by (try lia; specialize (L y); lia). tauto.
Qed.

Lemma juneteenth_iff : (exists y, y >= 2022 /\ n = observed (day_number y 6 19)) <-> is_juneteenth (unpack n) true = true.
Proof.
  rewrite (fixed_iff (fun y => y >= 2022)) by lia. unfold is_juneteenth. fields_in. bools. unfold Mon, Fri. lia.
Qed.
Lemma juneteenth_monday_iff : (exists y, y >= 2022 /\ n = observed_monday (day_number y 6 19)) <-> is_juneteenth (unpack n) false = true.
Proof.
  rewrite (fixed_monday_iff (fun y => y >= 2022)) by lia. unfold is_juneteenth. fields_in. bools. unfold Mon, Fri. lia.
Qed.

Lemma always_iff : forall m d, 1 <= m <= 12 -> 2 <= d -> d + 1 <= 28 ->
  (exists y, n = observed (day_number y m d)) <->
  date_month n = m /\ (date_day n = d \/ (date_day n = d + 1 /\ weekday n = 0) \/ (date_day n = d - 1 /\ weekday n = 4)).
Proof.
  intros m d H1 H2 H3. pose proof (fixed_iff (fun _ => True) m d H1 H2 H3) as E.
  assert (X : (exists y, n = observed (day_number y m d)) <-> exists y, True /\ n = observed (day_number y m d))
    by (split; intros (y & Y); exists y; tauto).
  rewrite X. tauto.
Qed.
Lemma always_monday_iff : forall m d, 1 <= m <= 12 -> 1 <= d -> d + 1 <= 28 ->
  (exists y, n = observed_monday (day_number y m d)) <->
  date_month n = m /\ (date_day n = d \/ (date_day n = d + 1 /\ weekday n = 0)).
Proof.
  intros m d H1 H2 H3. pose proof (fixed_monday_iff (fun _ => True) m d H1 H2 H3) as E.
  assert (X : (exists y, n = observed_monday (day_number y m d)) <-> exists y, True /\ n = observed_monday (day_number y m d))
    by (split; intros (y & Y); exists y; tauto).
  rewrite X. tauto.
Qed.

Lemma ex_or : forall P Q : Z -> Prop, (exists y, P y \/ Q y) <-> (exists y, P y) \/ (exists y, Q y).
Proof. intros P Q. split; [intros (y & [H|H]); eauto|intros [(y & H)|(y & H)]; eauto]. Qed.

Lemma settlement_iff : (exists y, settlement_holiday y n) <-> us_is_holiday UsSettlement (unpack n) = true.
Proof.
  unfold settlement_holiday. rewrite !ex_or, washington_iff, memorial_iff, juneteenth_iff, labor_iff, columbus_iff, veterans_iff,
    thanksgiving_iff, king_iff, (new_year_iff n weekday_n), !always_iff by lia.
  unfold us_is_holiday. cbv zeta. rewrite !orb_true_iff.
  generalize (is_washington_birthday (unpack n) = true) (is_memorial_day (unpack n) = true) (is_juneteenth (unpack n) true = true)
    (is_labor_day (unpack n) = true) (is_columbus_day (unpack n) = true) (is_veterans_day_no_saturday (unpack n) = true).
  intros P1 P2 P3 P4 P5 P6. fields_in. unfold within. bools. unfold Mon, Fri, Thu. simpl Z.add. simpl Z.sub.
  split; intro H; repeat (destruct H as [H|H]); try tauto; repeat destruct H as [H ?]; repeat (destruct H as [H|H]); tauto.
Qed.

Lemma federal_reserve_iff : (exists y, federal_reserve_holiday y n) <-> us_is_holiday UsFederalReserve (unpack n) = true.
Proof.
  unfold federal_reserve_holiday. rewrite !ex_or, washington_iff, memorial_iff, juneteenth_monday_iff, labor_iff, columbus_iff, veterans_iff,
    thanksgiving_iff, king_iff, !always_monday_iff by lia.
  unfold us_is_holiday. cbv zeta. rewrite !orb_true_iff.
  generalize (is_washington_birthday (unpack n) = true) (is_memorial_day (unpack n) = true) (is_juneteenth (unpack n) false = true)
    (is_labor_day (unpack n) = true) (is_columbus_day (unpack n) = true) (is_veterans_day_no_saturday (unpack n) = true).
  intros P1 P2 P3 P4 P5 P6. fields_in. unfold within. bools. unfold Mon, Fri, Thu. simpl Z.add. simpl Z.sub.
  split; intro H; repeat (destruct H as [H|H]); try tauto; repeat destruct H as [H ?]; repeat (destruct H as [H|H]); tauto.
Qed.

(** ** Good Friday *)
Lemma good_friday_table : forallb (fun k => let y := 1901 + Z.of_nat k in
   (year_start y + nth k easter_mondays_1 0 - 1 =? orthodox_easter y + 1) &&
   (year_start y + nth k easter_mondays_0 0 - 1 =? western_easter y + 1) &&
   (4 <=? nth k easter_mondays_1 0) && (4 <=? nth k easter_mondays_0 0) &&
   (nth k easter_mondays_1 0 <=? 200) && (nth k easter_mondays_0 0 <=? 200)) (seq 0 299) = true.
Proof. vm_compute. reflexivity. Qed.

Lemma good_friday_iff : forall b, is_good_friday (unpack n) b = true <->
  exists y, good_friday (if b then western_easter else orthodox_easter) y n.
Proof.
  assert (T : forall y, 1901 <= y <= 2199 ->
     year_start y + nth (Z.to_nat (y - 1901)) easter_mondays_1 0 - 1 = orthodox_easter y + 1 /\
     year_start y + nth (Z.to_nat (y - 1901)) easter_mondays_0 0 - 1 = western_easter y + 1 /\
     4 <= nth (Z.to_nat (y - 1901)) easter_mondays_1 0 <= 200 /\ 4 <= nth (Z.to_nat (y - 1901)) easter_mondays_0 0 <= 200).
  { intros y Hy. pose proof good_friday_table as F. rewrite forallb_forall in F.
    specialize (F (Z.to_nat (y - 1901))). cbv zeta in F. rewrite Z2Nat.id in F by lia.
    replace (1901 + (y - 1901)) with y in F by lia. rewrite !andb_true_iff, !Z.eqb_eq, !Z.leb_le in F.
    destruct F as (((((F1 & F2) & F3) & F4) & F5) & F6); [apply in_seq; lia|]. auto. }
  intro b. unfold is_good_friday. fields_in. set (Y := date_year n). unfold good_friday.
  pose proof (date_year_spec n) as YS. fold Y in YS.
  destruct (Z.ltb_spec Y 1901) as [L|L]; [|destruct (Z.ltb_spec 2199 Y) as [L'|L']]; cbn [orb].
  1,2: (split; [discriminate|]; intros (y & Hy & E); exfalso; destruct (T y Hy) as (T1 & T2 & T3 & T4);
     assert (Q : year_start y <= n < year_start (y + 1));
     [rewrite year_next; assert (365 <= year_days y) by (unfold year_days; destruct (leapb y); lia); destruct b; lia|];
     apply date_year_unique in Q; fold Y in Q; lia).
  destruct (T Y ltac:(lia)) as (T1 & T2 & T3 & T4). unfold date_ordinal. fold Y.
  split.
  - intro E. exists Y. split; [lia|]. destruct b; apply Z.eqb_eq in E; lia.
  - intros (y & Hy & E). destruct (T y Hy) as (U1 & U2 & U3 & U4).
    assert (Q : y = Y).
    { symmetry. apply date_year_unique. rewrite year_next.
      assert (365 <= year_days y) by (unfold year_days; destruct (leapb y); lia). destruct b; lia. }
    subst y. destruct b; apply Z.eqb_eq; lia.
Qed.

(** ** The stock exchange *)
Lemma king_1998_iff : (exists y, king_day 1998 y n) <->
  date_month n = 1 /\ 15 <= date_day n <= 21 /\ weekday n = 0 /\ 1998 <= date_year n.
Proof.
  rewrite this_year by (intros y; unfold king_day; rewrite nth_weekday_iff by lia; tauto).
  unfold king_day. rewrite nth_weekday_iff by lia. unfold Monday. lia.
Qed.

Lemma rem_mod_4 : forall y, Z.rem y 4 = 0 <-> y mod 4 = 0.
Proof. intro y. Z.to_euclidean_division_equations; lia. Qed.

Lemma tuesday_iff : (exists y, (y <= 1968 \/ (y <= 1980 /\ y mod 4 = 0)) /\ first_tuesday y n) <->
  (date_year n <= 1968 \/ (date_year n <= 1980 /\ Z.rem (date_year n) 4 = 0)) /\ date_month n = 11 /\ date_day n <= 7 /\ weekday n = 1.
Proof.
  rewrite this_year.
  - rewrite rem_mod_4. unfold first_tuesday. rewrite nth_weekday_iff by lia. unfold Tuesday.
    destruct (date_month_spec n) as [_ D]. intuition lia.
  - intros y [_ H]. unfold first_tuesday in H. rewrite nth_weekday_iff in H by lia. tauto.
Qed.

Lemma listed_iff : forall l, Forall (fun e => match e with (y, m, d) => valid_date y m d end) l ->
  (listed l n <-> existsb (fun e => match e with (y, m, d) => (date_year n =? y) && (date_month n =? m) && (date_day n =? d) end) l = true).
Proof.
  intros l F. unfold listed. rewrite existsb_exists. rewrite Forall_forall in F. split.
  - intros (y & m & d & I & E). exists (y, m, d). split; [exact I|]. apply date_is in E; [|exact (F _ I)].
    destruct E as (-> & -> & ->). rewrite !Z.eqb_refl. reflexivity.
  - intros ([[y m] d] & I & E). exists y, m, d. split; [exact I|]. apply date_is; [exact (F _ I)|].
    rewrite !andb_true_iff, !Z.eqb_eq in E. tauto.
Qed.

Lemma paper_crisis_iff : paper_crisis n <-> date_year n = 1968 /\ 163 <= date_ordinal n /\ weekday n = 2.
Proof.
  unfold paper_crisis, Wednesday. change (day_number 1968 6 12) with (-568). change (day_number 1968 12 31) with (-366).
  pose proof (date_year_spec n) as S0. unfold date_ordinal. split.
  - intros [A B]. assert (Y : date_year n = 1968).
    { apply date_year_unique. change (year_start 1968) with (-731). change (year_start (1968 + 1)) with (-365). lia. }
    rewrite Y. change (year_start 1968) with (-731). lia.
  - intros (Y & O & W). rewrite Y in *. change (year_start 1968) with (-731) in *. change (year_start (1968 + 1)) with (-365) in *.
    split; [|exact W]. split; [|lia]. unfold weekday in W.
    assert (n <> -569) by (intros ->; discriminate W). lia.
Qed.

Definition nyse_c (y m d w o : Z) : bool :=
  ((y =? 2018) && (m =? 12) && (d =? 5))
  || ((y =? 2012) && (m =? 10) && ((d =? 29) || (d =? 30)))
  || ((y =? 2007) && (m =? 1) && (d =? 2))
  || ((y =? 2004) && (m =? 6) && (d =? 11))
  || ((y =? 2001) && (m =? 9) && within 11 14 d)
  || ((y =? 1994) && (m =? 4) && (d =? 27))
  || ((y =? 1985) && (m =? 9) && (d =? 27))
  || ((y =? 1977) && (m =? 7) && (d =? 14))
  || ((y =? 1973) && (m =? 1) && (d =? 25))
  || ((y =? 1972) && (m =? 12) && (d =? 28))
  || ((y =? 1969) && (m =? 7) && (d =? 21))
  || ((y =? 1969) && (m =? 3) && (d =? 31))
  || ((y =? 1969) && (m =? 2) && (d =? 10))
  || ((y =? 1968) && (m =? 7) && (d =? 5))
  || ((y =? 1968) && (163 <=? o) && (w =? Wed))
  || ((y =? 1968) && (m =? 4) && (d =? 9))
  || ((y =? 1963) && (m =? 11) && (d =? 25))
  || ((y =? 1961) && (m =? 5) && (d =? 29))
  || ((y =? 1958) && (m =? 12) && (d =? 26))
  || (((y =? 1954) || (y =? 1956) || (y =? 1965)) && (m =? 12) && (d =? 24)).

Lemma closings_iff : forall y m d w o,
  nyse_c y m d w o = true <->
  existsb (fun e => match e with (y', m', d') => (y =? y') && (m =? m') && (d =? d') end) nyse_closings = true \/
  (y = 1968 /\ 163 <= o /\ w = 2).
Proof.
  intros y m d w o. unfold nyse_closings. cbn [existsb]. unfold nyse_c, within.
  split.
  - intro H. bools_in H. unfold Wed in *.
    repeat match goal with Q : _ /\ _ |- _ => destruct Q | Q : _ \/ _ |- _ => destruct Q end; try (right; lia); left.
    all: try (assert (d = 11 \/ d = 12 \/ d = 13 \/ d = 14) as [->|[->|[->| ->]]] by lia).
    all: try discriminate; subst; reflexivity.
  - intros [H|(-> & B & ->)].
    + bools_in H. repeat (destruct H as [H|H]); try discriminate H; destruct H as [[-> ->] ->]; cbn; rewrite ?orb_true_r; reflexivity.
    + replace (163 <=? o) with true by (symmetry; apply Z.leb_le; exact B). cbn. rewrite ?orb_true_r. reflexivity.
Qed.

Lemma nyse_iff : (exists y, nyse_holiday orthodox_easter first_tuesday y n) \/ listed nyse_closings n \/ paper_crisis n <->
  us_is_holiday UsNyse (unpack n) = true.
Proof.
  unfold nyse_holiday. rewrite !ex_or, washington_iff, memorial_iff, juneteenth_iff, labor_iff, <- (good_friday_iff false),
    thanksgiving_iff, king_1998_iff, always_monday_iff, !always_iff, tuesday_iff by lia.
  rewrite paper_crisis_iff, listed_iff
    by (repeat (apply Forall_cons; [split; [lia|split; apply Z.leb_le; reflexivity]|]); apply Forall_nil).
  pose proof (closings_iff (date_year n) (date_month n) (date_day n) (weekday n) (date_ordinal n)) as C. rewrite <- C.
  transitivity ((
    (((f_day (unpack n) =? 1) || ((f_day (unpack n) =? 2) && (f_weekday (unpack n) =? Mon))) && (f_month (unpack n) =? 1))
         || is_washington_birthday (unpack n)
         || is_good_friday (unpack n) false
         || is_memorial_day (unpack n)
         || is_juneteenth (unpack n) true
         || (((f_day (unpack n) =? 4) || ((f_day (unpack n) =? 5) && (f_weekday (unpack n) =? Mon)) || ((f_day (unpack n) =? 3) && (f_weekday (unpack n) =? Fri))) && (f_month (unpack n) =? 7))
         || is_labor_day (unpack n)
         || (within 22 28 (f_day (unpack n)) && (f_weekday (unpack n) =? Thu) && (f_month (unpack n) =? 11))
         || (((f_day (unpack n) =? 25) || ((f_day (unpack n) =? 26) && (f_weekday (unpack n) =? Mon)) || ((f_day (unpack n) =? 24) && (f_weekday (unpack n) =? Fri))) && (f_month (unpack n) =? 12))
         || ((1998 <=? f_year (unpack n)) && within 15 21 (f_day (unpack n)) && (f_weekday (unpack n) =? Mon) && (f_month (unpack n) =? 1))
         || (((f_year (unpack n) <=? 1968) || ((f_year (unpack n) <=? 1980) && (Z.rem (f_year (unpack n)) 4 =? 0))) && (f_month (unpack n) =? 11) && (f_day (unpack n) <=? 7) && (f_weekday (unpack n) =? Tue))
         || nyse_c (f_year (unpack n)) (f_month (unpack n)) (f_day (unpack n)) (f_weekday (unpack n)) (f_ordinal (unpack n))) = true).
  - rewrite !orb_true_iff.
    generalize (is_washington_birthday (unpack n) = true) (is_memorial_day (unpack n) = true) (is_juneteenth (unpack n) true = true)
      (is_labor_day (unpack n) = true) (is_good_friday (unpack n) false = true). intros P1 P2 P3 P4 P5.
    fields_in. generalize (nyse_c (date_year n) (date_month n) (date_day n) (weekday n) (date_ordinal n) = true). intro P6.
    unfold within. bools. unfold Mon, Fri, Thu, Tue. simpl Z.add. simpl Z.sub. clear C.
    split; intro H; repeat (destruct H as [H|H]); try tauto; repeat destruct H as [H ?]; repeat (destruct H as [H|H]); tauto.
  - unfold us_is_holiday. cbv zeta. unfold nyse_c.
    match goal with |- ?b || _ || _ || _ = true <-> (if ?b then _ else _) = true => destruct b; [cbn [orb]; tauto|] end.
    cbn [orb].
    match goal with |- _ <-> (if ?b then _ else _) = true => set (B := b) end.
    match goal with |- _ <-> (if _ then _ else if ?b then _ else _) = true => set (D := b) end.
    destruct B, D; cbn [orb]; tauto.
Qed.

Definition bond_c (y m d : Z) : bool :=
  ((y =? 2018) && (m =? 12) && (d =? 5)) || ((y =? 2012) && (m =? 10) && (d =? 30)) || ((y =? 2004) && (m =? 6) && (d =? 11)).

Lemma bond_closings_iff : forall y m d,
  bond_c y m d = true <->
  existsb (fun e => match e with (y', m', d') => (y =? y') && (m =? m') && (d =? d') end) bond_closings = true.
Proof. intros y m d. unfold bond_closings. cbn [existsb]. unfold bond_c. bools. intuition discriminate. Qed.

Definition bond_a (f : fields) : bool :=
  (((f_day f =? 1) || ((f_day f =? 2) && (f_weekday f =? Mon))) && (f_month f =? 1))
     || (within 15 21 (f_day f) && (f_weekday f =? Mon) && (f_month f =? 1) && (1983 <=? f_year f))
     || is_washington_birthday f
     || is_memorial_day f
     || is_juneteenth f true
     || (((f_day f =? 4) || ((f_day f =? 5) && (f_weekday f =? Mon)) || ((f_day f =? 3) && (f_weekday f =? Fri))) && (f_month f =? 7))
     || is_labor_day f
     || is_columbus_day f
     || is_veterans_day_no_saturday f
     || (within 22 28 (f_day f) && (f_weekday f =? Thu) && (f_month f =? 11))
     || (((f_day f =? 25) || ((f_day f =? 26) && (f_weekday f =? Mon)) || ((f_day f =? 24) && (f_weekday f =? Fri))) && (f_month f =? 12)).

Lemma bond_regular_iff : (exists y, bond_regular_holiday y n) <-> bond_a (unpack n) = true.
Proof.
  unfold bond_regular_holiday. rewrite !ex_or, washington_iff, memorial_iff, juneteenth_iff, labor_iff, columbus_iff, veterans_iff,
    thanksgiving_iff, king_iff, always_monday_iff, !always_iff by lia.
  unfold bond_a. rewrite !orb_true_iff.
  generalize (is_washington_birthday (unpack n) = true) (is_memorial_day (unpack n) = true) (is_juneteenth (unpack n) true = true)
    (is_labor_day (unpack n) = true) (is_columbus_day (unpack n) = true) (is_veterans_day_no_saturday (unpack n) = true).
  intros P1 P2 P3 P4 P5 P6. fields_in. unfold within. bools. unfold Mon, Fri, Thu. simpl Z.add. simpl Z.sub.
  split; intro H; repeat (destruct H as [H|H]); try tauto; repeat destruct H as [H ?]; repeat (destruct H as [H|H]); tauto.
Qed.

Lemma bond_parts : forall f, goverment_bond_holiday f =
  bond_a f || (is_good_friday f false && negb ((f_year f =? 2015) || (f_year f =? 2021) || (f_year f =? 2023))) ||
  bond_c (f_year f) (f_month f) (f_day f).
Proof.
  intro f. unfold goverment_bond_holiday, bond_a, bond_c. cbv zeta.
  generalize (is_good_friday f false && negb ((f_year f =? 2015) || (f_year f =? 2021) || (f_year f =? 2023))).
  intro g.
  repeat match goal with |- context [is_washington_birthday f] => generalize (is_washington_birthday f); intro
    | |- context [is_memorial_day f] => generalize (is_memorial_day f); intro
    | |- context [is_juneteenth f true] => generalize (is_juneteenth f true); intro
    | |- context [is_labor_day f] => generalize (is_labor_day f); intro
    | |- context [is_columbus_day f] => generalize (is_columbus_day f); intro
    | |- context [is_veterans_day_no_saturday f] => generalize (is_veterans_day_no_saturday f); intro end.
  destruct g, b, b0, b1, b2, b3, b4; rewrite ?orb_true_r, ?orb_false_r; cbn [orb]; rewrite ?orb_true_r; cbn [orb]; try reflexivity.
  match goal with |- (if ?a || ?x then _ else (if ?z then _ else _)) = _ => destruct a, x, z end; reflexivity.
Qed.
End Rules.

Theorem us_settlement_days : forall n,
  holiday_on (new_united_states UsSettlement) n = true <-> weekend_day n \/ exists y, settlement_holiday y n.
Proof.
  intro n. rewrite no_edits. destruct (Z_lt_ge_dec (weekday n) 5) as [L|G].
  - rewrite <- (settlement_iff n L). tauto.
  - pose proof (weekday_range n). assert (weekend_day n) by (unfold weekend_day, Saturday, Sunday; lia). tauto.
Qed.
Theorem us_federal_reserve_days : forall n,
  holiday_on (new_united_states UsFederalReserve) n = true <-> weekend_day n \/ exists y, federal_reserve_holiday y n.
Proof.
  intro n. rewrite no_edits. destruct (Z_lt_ge_dec (weekday n) 5) as [L|G].
  - rewrite <- (federal_reserve_iff n L). tauto.
  - pose proof (weekday_range n). assert (weekend_day n) by (unfold weekend_day, Saturday, Sunday; lia). tauto.
Qed.

Lemma days_of : forall ty (Q : Z -> Prop), (forall n, weekday n < 5 -> (Q n <-> us_is_holiday ty (unpack n) = true)) ->
  forall n, holiday_on (new_united_states ty) n = true <-> weekend_day n \/ Q n.
Proof.
  intros ty Q L n. rewrite no_edits. destruct (Z_lt_ge_dec (weekday n) 5) as [L0|G0].
  - rewrite <- (L n L0). tauto.
  - pose proof (weekday_range n). assert (weekend_day n) by (unfold weekend_day, Saturday, Sunday; lia). tauto.
Qed.

Theorem us_nyse_days : forall n, holiday_on (new_united_states UsNyse) n = true <->
  weekend_day n \/ (exists y, nyse_holiday orthodox_easter first_tuesday y n) \/ listed nyse_closings n \/ paper_crisis n.
Proof. apply (days_of _ (fun n => _)). exact nyse_iff. Qed.

Lemma bond_listed_iff : forall n, listed bond_closings n <-> bond_c (date_year n) (date_month n) (date_day n) = true.
Proof.
  intro n. rewrite bond_closings_iff, <- listed_iff; [reflexivity|].
  repeat (apply Forall_cons; [split; [lia|split; apply Z.leb_le; reflexivity]|]); apply Forall_nil.
Qed.

Lemma good_friday_year : forall n y, good_friday orthodox_easter y n -> date_year n = y.
Proof.
  intros n y H. assert (X : is_good_friday (unpack n) false = true) by (apply good_friday_iff; exists y; exact H).
  destruct H as [Hy E]. pose proof good_friday_table as F. rewrite forallb_forall in F.
  specialize (F (Z.to_nat (y - 1901))). cbv zeta in F. rewrite Z2Nat.id in F by lia.
  replace (1901 + (y - 1901)) with y in F by lia. rewrite !andb_true_iff, !Z.eqb_eq, !Z.leb_le in F.
  destruct F as (((((F1 & F2) & F3) & F4) & F5) & F6); [apply in_seq; lia|].
  apply date_year_unique. rewrite year_next. assert (365 <= year_days y) by (unfold year_days; destruct (leapb y); lia). lia.
Qed.

Lemma government_bond_iff : forall n, weekday n < 5 ->
  ((exists y, bond_holiday orthodox_easter y n) \/ listed bond_closings n <-> us_is_holiday UsGovernmentBond (unpack n) = true).
Proof.
  intros n W. unfold bond_holiday. rewrite ex_or, bond_regular_iff, bond_listed_iff by exact W.
  assert (G : (exists y, good_friday orthodox_easter y n /\ y <> 2015 /\ y <> 2021 /\ y <> 2023) <->
    is_good_friday (unpack n) false && negb ((date_year n =? 2015) || (date_year n =? 2021) || (date_year n =? 2023)) = true).
  { rewrite andb_true_iff, negb_true_iff, !orb_false_iff, !Z.eqb_neq, (good_friday_iff n false). split.
    - intros (y & A & B). pose proof (good_friday_year n y A). split; [exists y; exact A|lia].
    - intros ((y & A) & B). pose proof (good_friday_year n y A). exists y. split; [exact A|lia]. }
  rewrite G. unfold us_is_holiday. rewrite bond_parts, !orb_true_iff. rewrite unpack_fields at 2 3 4 5 6 7.
  cbn [f_year f_month f_day]. tauto.
Qed.
Theorem us_government_bond_days : forall n, holiday_on (new_united_states UsGovernmentBond) n = true <->
  weekend_day n \/ (exists y, bond_holiday orthodox_easter y n) \/ listed bond_closings n.
Proof. apply (days_of _ (fun n => _)). exact government_bond_iff. Qed.

Lemma sofr_iff : forall n, weekday n < 5 ->
  ((exists y, sofr_holiday orthodox_easter y n) \/ listed bond_closings n <-> us_is_holiday UsSofr (unpack n) = true).
Proof.
  intros n W. pose proof (government_bond_iff n W) as B. unfold us_is_holiday at 1. unfold us_is_holiday in B.
  unfold bond_holiday in B. unfold sofr_holiday. rewrite ex_or in *. pose proof (good_friday_iff n false) as G. cbv iota in G.
  destruct (is_good_friday (unpack n) false).
  - tauto.
  - rewrite <- B.
    assert (~ exists y, good_friday orthodox_easter y n) by (intro X; apply G in X; discriminate).
    assert (~ exists y, good_friday orthodox_easter y n /\ y <> 2015 /\ y <> 2021 /\ y <> 2023)
      by (intros (y & X & _); apply H; exists y; exact X).
    tauto.
Qed.
Theorem us_sofr_days : forall n, holiday_on (new_united_states UsSofr) n = true <->
  weekend_day n \/ (exists y, sofr_holiday orthodox_easter y n) \/ listed bond_closings n.
Proof. apply (days_of _ (fun n => _)). exact sofr_iff. Qed.
