(** QCalProps.v -- dates and calendars: the properties (C77-C91). *)
From Coq Require Import ZArith List Bool Lia Permutation Sorted.
From Verif Require Import Base CivilSpec QDateModel QDateProofs QCalTables QCalModel QCalProofs QCalScan QCalSpec
  QCalAdjust QCalAdjust2 QCalDisplay QCalRules QCalKorea.
Import ListNotations.
Open Scope Z_scope.
Local Strategy 1000 [while_loop run_pow].

(** every conversion to another offset of a date this far inside succeeds *)
Definition away_from_ends (k : Z) (d : odt) : Prop :=
  odt_ok d /\ date_min + 2 + k <= od_day d <= date_max - 2 - k.

Lemma away_inner : forall k d, 0 <= k -> away_from_ends k d -> odt_ok d /\ inner d.
Proof. intros k d H [A B]. split; [exact A|]. unfold inner. lia. Qed.
Lemma away_roomy : forall a d, away_from_ends (span a) d -> odt_ok d /\ roomy a d.
Proof. intros a d [A B]. split; [exact A|]. unfold roomy. lia. Qed.
Lemma away_example : forall k, 0 <= k <= 2000000 -> away_from_ends k (midnight 2024 5 6 9).
Proof.
  intros k H. split.
  - unfold odt_ok, midnight. cbn [od_day od_ns od_off]. change (day_number 2024 5 6) with 19849.
    split; [reflexivity|]. unfold day_ns. lia.
  - unfold midnight. cbn [od_day]. change (day_number 2024 5 6) with 19849. unfold date_min, date_max. lia.
Qed.

(** ** C77: leap years and month ends are the Gregorian ones *)
Theorem c77_leap_year : forall y, is_leap_year y = true <-> leap y.
Proof.
  intro y. unfold is_leap_year, leap. rewrite orb_true_iff, andb_true_iff, negb_true_iff, !Z.eqb_eq, Z.eqb_neq.
  assert (R : forall k, k = 4 \/ k = 100 \/ k = 400 -> (Z.rem y k = 0 <-> y mod k = 0)).
  { intros k Hk. destruct Hk as [->|[->| ->]]; split; intro; Z.to_euclidean_division_equations; lia. }
  rewrite (R 4), (R 400) by auto. pose proof (R 100 ltac:(auto)). intuition.
Qed.
Theorem c77_last_day_of_month : forall y m, -9999 <= y <= 9999 -> 1 <= m <= 12 ->
  exists n, last_day_of_month y m = Ret n /\ in_month y m n /\ (forall k, in_month y m k -> k <= n) /\ ~ in_month y m (n + 1).
Proof.
  intros y m Hy Hm. exists (day_number y m (month_days y m)). split.
  - unfold last_day_of_month, from_calendar_date.
    replace (is_leap_year y) with (leapb y)
      by (apply eq_true_iff_eq; rewrite c77_leap_year; apply leapb_leap).
    assert (A : (-9999 <=? y) = true) by (apply Z.leb_le; lia). assert (B : (y <=? 9999) = true) by (apply Z.leb_le; lia).
    rewrite A, B. month_cases m; unfold month_days; try reflexivity. cbn. destruct (leapb y); reflexivity.
  - unfold in_month. pose proof (month_days_range y m) as R. unfold day_number. repeat split; intros; lia.
Qed.
Example c77_hypotheses_met : last_day_of_month 2024 2 = Ret (day_number 2024 2 29) /\ last_day_of_month 1900 2 = Ret (day_number 1900 2 28).
Proof. split; reflexivity. Qed.

(** ** C78: holiday status depends on the point in time only... *)
Theorem c78_status_is_of_the_instant : forall a d e,
  (match a with One c => c <> NullCalendar | Joint cs => ~ In NullCalendar cs end) -> instant d = instant e ->
  is_business_day a d = is_business_day a e /\ is_weekend a d = is_weekend a e.
Proof.
  intros a d e Hn E. destruct (holiday_instant a d e Hn E) as [A B]. unfold is_business_day. rewrite A, B. auto.
Qed.
Example c78_hypotheses_met :
  instant (midnight 2024 5 6 9) = instant (Odt (day_number 2024 5 5) (15 * 3600000000000) 0) /\
  is_business_day (One (new_south_korea KrKrx)) (midnight 2024 5 6 9) = Ret false /\
  is_business_day (One (new_south_korea KrKrx)) (Odt (day_number 2024 5 5) (15 * 3600000000000) 0) = Ret false.
Proof. repeat split; vm_compute; reflexivity. Qed.
(** ... but not for the null calendar, which looks at the date in the offset it is given *)
Theorem c78_null_calendar_refuted : ~ (forall d e, odt_ok d -> odt_ok e -> instant d = instant e ->
  is_business_day (One NullCalendar) d = is_business_day (One NullCalendar) e).
Proof.
  intro H. specialize (H (midnight 2024 5 6 9) (Odt (day_number 2024 5 5) (15 * 3600000000000) 0)).
  assert (A : odt_ok (midnight 2024 5 6 9)) by (apply (away_example 0); lia).
  assert (B : odt_ok (Odt (day_number 2024 5 5) (15 * 3600000000000) 0)).
  { unfold odt_ok. cbn [od_day od_ns od_off]. split; [reflexivity|]. unfold day_ns. lia. }
  specialize (H A B ltac:(reflexivity)). vm_compute in H. discriminate H.
Qed.

(** ** C79, C80: Following and Preceding find the nearest business day, within [span] days *)
Theorem c79_following : forall a d, odt_ok d ->
  (away_from_ends 0 d /\ od_day d + span a <= date_max - 2 ->
   exists k, 0 <= k < span a /\ adjust a d Following = Ret (ROk (later d k)) /\
     is_open a (later d k) /\ forall j, 0 <= j < k -> is_closed a (later d j)) /\
  (* even at the end of the calendar: it returns the first business day or panics *)
  ((exists k, 0 <= k /\ adjust a d Following = Ret (ROk (later d k)) /\
     is_open a (later d k) /\ forall j, 0 <= j < k -> is_closed a (later d j)) \/
   adjust a d Following = Panic).
Proof.
  intros a d Hd. split.
  - intros [A B]. destruct (away_inner 0 d ltac:(lia) A) as [_ I]. unfold inner in I. pose proof (span_pos a).
    destruct (walk_near a 1 d (or_introl eq_refl) Hd I ltac:(lia)) as (k & K & (N1 & N2 & N3) & E).
    rewrite Z.mul_1_l in *. exists k. split; [lia|]. split.
    + unfold adjust, adjust_following. rewrite E. reflexivity.
    + split; [exact N2|]. intros j Hj. specialize (N3 j Hj). rewrite Z.mul_1_l in N3. exact N3.
  - destruct (walk_cases a 1 d (or_introl eq_refl) (proj1 Hd)) as [(k & (N1 & N2 & N3) & E)|E].
    + left. exists k. rewrite Z.mul_1_l in *. split; [exact N1|]. split.
      * unfold adjust, adjust_following. rewrite E. reflexivity.
      * split; [exact N2|]. intros j Hj. specialize (N3 j Hj). rewrite Z.mul_1_l in N3. exact N3.
    + right. unfold adjust, adjust_following. rewrite E. reflexivity.
Qed.
Theorem c80_preceding : forall a d, odt_ok d ->
  (away_from_ends 0 d /\ date_min + 2 <= od_day d - span a ->
   exists k, 0 <= k < span a /\ adjust a d Preceding = Ret (ROk (later d (- k))) /\
     is_open a (later d (- k)) /\ forall j, 0 <= j < k -> is_closed a (later d (- j))) /\
  ((exists k, 0 <= k /\ adjust a d Preceding = Ret (ROk (later d (- k))) /\
     is_open a (later d (- k)) /\ forall j, 0 <= j < k -> is_closed a (later d (- j))) \/
   adjust a d Preceding = Panic).
Proof.
  assert (M : forall k, -1 * k = - k) by (intro; lia).
  intros a d Hd. split.
  - intros [A B]. destruct (away_inner 0 d ltac:(lia) A) as [_ I]. unfold inner in I. pose proof (span_pos a).
    destruct (walk_near a (-1) d (or_intror eq_refl) Hd I ltac:(lia)) as (k & K & (N1 & N2 & N3) & E).
    rewrite M in *. exists k. split; [lia|]. split.
    + unfold adjust, adjust_preceding. rewrite E. reflexivity.
    + split; [exact N2|]. intros j Hj. specialize (N3 j Hj). rewrite M in N3. exact N3.
  - destruct (walk_cases a (-1) d (or_intror eq_refl) (proj1 Hd)) as [(k & (N1 & N2 & N3) & E)|E].
    + left. exists k. rewrite M in *. split; [exact N1|]. split.
      * unfold adjust, adjust_preceding. rewrite E. reflexivity.
      * split; [exact N2|]. intros j Hj. specialize (N3 j Hj). rewrite M in N3. exact N3.
    + right. unfold adjust, adjust_preceding. rewrite E. reflexivity.
Qed.
(** Lunar New Year 2024 runs from Friday 9 to Monday 12 February *)
Example c79_hypotheses_met : let a := One (new_south_korea KrKrx) in
  away_from_ends (span a) (midnight 2024 5 6 9) /\ 
  adjust a (midnight 2024 2 9 9) Following = Ret (ROk (midnight 2024 2 13 9)) /\
  adjust a (midnight 2024 2 12 9) Preceding = Ret (ROk (midnight 2024 2 8 9)).
Proof. cbv zeta. split; [apply away_example; unfold span; cbn; lia|]. split; vm_compute; reflexivity. Qed.

(** ** C81: the modified conventions stay in the month *)
Theorem c81_modified_following : forall a d, away_from_ends (span a) d -> span a <= 300 ->
  exists r kf kp, adjust a d ModifiedFollowing = Ret (ROk r) /\
    adjust a d Following = Ret (ROk (later d kf)) /\ adjust a d Preceding = Ret (ROk (later d (- kp))) /\
    ((same_month d (later d kf) /\ r = later d kf) \/ (~ same_month d (later d kf) /\ r = later d (- kp))) /\
    is_open a r /\
    ((exists j, same_month d (later d j) /\ is_open a (later d j)) -> same_month d r).
Proof.
  intros a d A S0. destruct (away_roomy a d A) as [Hd Hr]. pose proof (inner_roomy _ _ Hr) as Hi.
  destruct (modified_result a 1 d (or_introl eq_refl) Hd Hr S0) as (r & E & M).
  destruct M as (kf & kp & F & P & C). pose proof (span_pos a) as SP. unfold roomy in Hr.
  destruct (walk_near a 1 d (or_introl eq_refl) Hd Hi ltac:(lia)) as (kf' & _ & F' & EF).
  destruct (walk_near a (-1) d (or_intror eq_refl) Hd Hi ltac:(lia)) as (kp' & _ & P' & EP).
  pose proof (nearest_unique _ _ _ _ _ F F') as <-. pose proof (nearest_unique _ _ _ _ _ P P') as <-.
  exists r, kf, kp. change (- (1)) with (-1) in *. rewrite Z.mul_1_l in *. replace (-1 * kp) with (- kp) in * by lia.
  split; [unfold adjust, adjust_modified_following, adjust_preceding; rewrite E; reflexivity|].
  split; [unfold adjust, adjust_following; rewrite EF; reflexivity|].
  split; [unfold adjust, adjust_preceding; rewrite EP; reflexivity|].
  split; [exact C|].
  assert (M : modified a 1 d r).
  { exists kf, kp. split; [exact F|]. split; [exact P|]. change (- (1)) with (-1). rewrite !Z.mul_1_l. replace (-1 * kp) with (- kp) by lia. exact C. }
  split; [exact (modified_open _ _ _ _ M)|]. exact (modified_in_month _ _ _ _ (or_introl eq_refl) M).
Qed.
Theorem c81_modified_preceding : forall a d, away_from_ends (span a) d -> span a <= 300 ->
  exists r kf kp, adjust a d ModifiedPreceding = Ret (ROk r) /\
    adjust a d Following = Ret (ROk (later d kf)) /\ adjust a d Preceding = Ret (ROk (later d (- kp))) /\
    ((same_month d (later d (- kp)) /\ r = later d (- kp)) \/ (~ same_month d (later d (- kp)) /\ r = later d kf)) /\
    is_open a r /\
    ((exists j, same_month d (later d j) /\ is_open a (later d j)) -> same_month d r).
Proof.
  intros a d A S0. destruct (away_roomy a d A) as [Hd Hr]. pose proof (inner_roomy _ _ Hr) as Hi.
  destruct (modified_result a (-1) d (or_intror eq_refl) Hd Hr S0) as (r & E & M).
  destruct M as (kp & kf & P & F & C). pose proof (span_pos a) as SP. unfold roomy in Hr.
  destruct (walk_near a 1 d (or_introl eq_refl) Hd Hi ltac:(lia)) as (kf' & _ & F' & EF).
  destruct (walk_near a (-1) d (or_intror eq_refl) Hd Hi ltac:(lia)) as (kp' & _ & P' & EP).
  change (- (-1)) with 1 in *.
  pose proof (nearest_unique _ _ _ _ _ F F') as <-. pose proof (nearest_unique _ _ _ _ _ P P') as <-.
  exists r, kf, kp. rewrite Z.mul_1_l in *. replace (-1 * kp) with (- kp) in * by lia.
  split; [unfold adjust, adjust_modified_preceding, adjust_following; rewrite E; reflexivity|].
  split; [unfold adjust, adjust_following; rewrite EF; reflexivity|].
  split; [unfold adjust, adjust_preceding; rewrite EP; reflexivity|].
  split; [exact C|].
  assert (M : modified a (-1) d r).
  { exists kp, kf. split; [exact P|]. split; [exact F|]. change (- (-1)) with 1. rewrite !Z.mul_1_l. replace (-1 * kp) with (- kp) by lia. exact C. }
  split; [exact (modified_open _ _ _ _ M)|]. exact (modified_in_month _ _ _ _ (or_intror eq_refl) M).
Qed.
(** with few holidays added by hand every month has a business day *)
Theorem c81_every_month_has_a_business_day : forall a d, away_from_ends 60 d -> span a <= 28 ->
  exists j, same_month d (later d j) /\ is_open a (later d j).
Proof.
  intros a d A S0. destruct (away_inner 60 d ltac:(lia) A) as [Hd Hi]. destruct A as [_ A].
  set (n := od_day d). set (y := date_year n). set (m := date_month n).
  destruct (open_near a d (1 - date_day n) Hd) as (k & K & O).
  pose proof (month_days_range y m) as R.
  destruct (date_month_spec n) as [M D]. fold y m in D.
  assert (S1 : same_month d (later d k)).
  { exists y, m. split; [exact M|]. cbn [later od_day]. fold n.
    assert (I0 : in_month y m n) by (apply in_month_date; [exact M|auto]). split; [exact I0|].
    apply in_month_shift; [reflexivity|reflexivity|]. lia. }
  exists k. split; [exact S1|]. apply open_iff. rewrite is_holiday_val.
  - rewrite O. reflexivity.
  - apply later_ok; [exact Hd|]. unfold in_range. rewrite andb_true_iff, !Z.leb_le. fold n. lia.
  - unfold inner. cbn [later od_day]. fold n. lia.
Qed.
Example c81_hypotheses_met : let a := Joint [new_south_korea KrKrx; new_united_states UsNyse] in
  away_from_ends (span a) (midnight 2024 5 6 9) /\ span a <= 28 /\
  adjust a (midnight 2024 3 30 9) ModifiedFollowing = Ret (ROk (midnight 2024 3 29 9)) /\
  adjust a (midnight 2024 6 1 9) ModifiedPreceding = Ret (ROk (midnight 2024 6 4 9)).
Proof.
  cbv zeta. split; [apply away_example; unfold span; cbn; lia|]. split; [unfold span; cbn; lia|]. split; vm_compute; reflexivity.
Qed.

(** ** C82: a business day stays; adjusting twice changes nothing; order is kept *)
Theorem c82_business_day_stays : forall a d cv, odt_ok d -> is_open a d ->
  adjust a d cv = if match cv with DummyConvention => true | _ => false end then Ret RErr else Ret (ROk d).
Proof.
  intros a d cv Hd Ho. pose proof (adjust_open a d cv (proj1 Hd) Ho) as H.
  destruct cv; try (apply H; discriminate). reflexivity.
Qed.
Theorem c82_idempotent : forall a d cv r, odt_ok d -> adjust a d cv = Ret (ROk r) -> adjust a r cv = Ret (ROk r).
Proof.
  intros a d cv r Hd E. destruct (match cv with Unadjusted => true | _ => false end) eqn:U.
  - destruct cv; try discriminate. reflexivity.
  - assert (Hc : cv <> Unadjusted) by (intros ->; discriminate).
    destruct (adjust_result a d cv r (proj1 Hd) Hc E) as [R O]. apply adjust_open; [exact R|exact O|].
    intros ->. discriminate E.
Qed.
Theorem c82_monotone : forall a d j cv r r', 0 <= j -> away_from_ends (span a) d -> away_from_ends (span a) (later d j) ->
  span a <= 300 -> adjust a d cv = Ret (ROk r) -> adjust a (later d j) cv = Ret (ROk r') -> instant r <= instant r'.
Proof.
  intros a d j cv r r' Hj A A' S0 E E'.
  destruct (away_roomy a d A) as [Hd Hr]. destruct (away_roomy a _ A') as [Hd' Hr'].
  assert (G : od_day r <= od_day r' -> od_ns r = od_ns d -> od_off r = od_off d -> od_ns r' = od_ns d -> od_off r' = od_off d ->
    instant r <= instant r') by (intros G1 G2 G3 G4 G5; unfold instant; rewrite G2, G3, G4, G5; unfold day_ns; nia).
  destruct cv; unfold adjust in E, E'.
  - injection E as <-. injection E' as <-. apply G; try reflexivity. cbn. lia.
  - unfold adjust_following in *.
    destruct (walk_cases a 1 d (or_introl eq_refl) (proj1 Hd)) as [(k & N & W)|W]; rewrite W in E; [|discriminate E].
    destruct (walk_cases a 1 (later d j) (or_introl eq_refl) (proj1 Hd')) as [(k' & N' & W')|W']; rewrite W' in E'; [|discriminate E'].
    rewrite !Z.mul_1_l in *. cbn [obind] in E, E'. assert (r = later d k) by congruence. assert (r' = later (later d j) k') by congruence. subst r r'.
    apply G; try reflexivity. cbn [later od_day].
    pose proof (nearest_mono a 1 d j k k' (or_introl eq_refl) Hj N) as Q. rewrite Z.mul_1_l in Q. specialize (Q N'). lia.
  - destruct (modified_result a 1 d (or_introl eq_refl) Hd Hr S0) as (x & X & M).
    destruct (modified_result a 1 (later d j) (or_introl eq_refl) Hd' Hr' S0) as (x' & X' & M').
    change (- (1)) with (-1) in *. unfold adjust_modified_following, adjust_preceding in E, E'. rewrite X in E. rewrite X' in E'.
    cbn [obind] in E, E'. injection E as <-. injection E' as <-.
    apply G; [exact (modified_mono_fwd a d j x x' Hj M M')| | | |];
      [destruct M as (? & ? & _ & _ & [[_ ->]|[_ ->]])|destruct M as (? & ? & _ & _ & [[_ ->]|[_ ->]])
      |destruct M' as (? & ? & _ & _ & [[_ ->]|[_ ->]])|destruct M' as (? & ? & _ & _ & [[_ ->]|[_ ->]])]; reflexivity.
  - unfold adjust_preceding in *.
    destruct (walk_cases a (-1) d (or_intror eq_refl) (proj1 Hd)) as [(k & N & W)|W]; rewrite W in E; [|discriminate E].
    destruct (walk_cases a (-1) (later d j) (or_intror eq_refl) (proj1 Hd')) as [(k' & N' & W')|W']; rewrite W' in E'; [|discriminate E'].
    cbn [obind] in E, E'. assert (r = later d (-1 * k)) by congruence. assert (r' = later (later d j) (-1 * k')) by congruence. subst r r'.
    apply G; try reflexivity. cbn [later od_day].
    assert (D : d = later (later d j) (-1 * j)) by (rewrite later_later; replace (j + -1 * j) with 0 by lia; symmetry; apply later_0).
    rewrite D in N. pose proof (nearest_mono a (-1) (later d j) j k' k (or_intror eq_refl) Hj N' N). lia.
  - destruct (modified_result a (-1) d (or_intror eq_refl) Hd Hr S0) as (x & X & M).
    destruct (modified_result a (-1) (later d j) (or_intror eq_refl) Hd' Hr' S0) as (x' & X' & M').
    change (- (-1)) with 1 in *. unfold adjust_modified_preceding, adjust_following in E, E'. rewrite X in E. rewrite X' in E'.
    cbn [obind] in E, E'. injection E as <-. injection E' as <-.
    assert (D : d = later (later d j) (- j)) by (rewrite later_later; replace (j + - j) with 0 by lia; symmetry; apply later_0).
    apply G; [|destruct M as (? & ? & _ & _ & [[_ ->]|[_ ->]])|destruct M as (? & ? & _ & _ & [[_ ->]|[_ ->]])
      |destruct M' as (? & ? & _ & _ & [[_ ->]|[_ ->]])|destruct M' as (? & ? & _ & _ & [[_ ->]|[_ ->]])]; try reflexivity.
    rewrite D in M. exact (modified_mono_bwd a (later d j) j x' x Hj M' M).
  - discriminate E.
Qed.
Example c82_hypotheses_met : let a := One (new_south_korea KrKrx) in
  is_open a (midnight 2024 2 13 9) /\
  adjust a (midnight 2024 2 9 9) ModifiedFollowing = Ret (ROk (midnight 2024 2 13 9)) /\
  adjust a (midnight 2024 2 13 9) ModifiedFollowing = Ret (ROk (midnight 2024 2 13 9)).
Proof. repeat split; vm_compute; reflexivity. Qed.

(** ** C83: among any [span] consecutive days one is a business day *)
Theorem c83_business_days_are_near : forall a d, away_from_ends (span a) d ->
  exists k, 0 <= k < span a /\ is_open a (later d k).
Proof.
  intros a d A. destruct (away_roomy a d A) as [Hd Hr]. pose proof (span_pos a).
  destruct (walk_near a 1 d (or_introl eq_refl) Hd (inner_roomy _ _ Hr)) as (k & K & (N1 & N2 & N3) & _); [unfold roomy in Hr; lia|].
  exists k. rewrite Z.mul_1_l in N2. split; [lia|exact N2].
Qed.
Theorem c83_unedited_spans : (forall ty, span (One (new_south_korea ty)) = 7) /\ (forall ty, span (One (new_united_states ty)) = 7) /\
  span (One NullCalendar) = 7 /\
  (forall cs, Forall (fun c => c = NullCalendar \/ (exists ty, c = new_south_korea ty) \/ (exists ty, c = new_united_states ty)) cs ->
     span (Joint cs) = 14).
Proof.
  repeat split. intros cs H. unfold span. cbn [all_added].
  assert (E : flat_map added cs = []).
  { induction H as [|c cs [->|[(ty & ->)|(ty & ->)]] _ IH]; [reflexivity| | |]; cbn [flat_map added new_south_korea new_united_states app]; exact IH. }
  rewrite E. reflexivity.
Qed.
Example c83_hypotheses_met : let a := Joint [new_south_korea KrKrx; new_united_states UsNyse] in
  away_from_ends (span a) (midnight 2024 5 6 9) /\ is_closed a (midnight 2024 2 9 9) /\ is_closed a (midnight 2024 2 12 9) /\
  is_open a (midnight 2024 2 14 9).
Proof. cbv zeta. split; [apply away_example; unfold span; cbn; lia|]. repeat split; vm_compute; reflexivity. Qed.

(** ** C84: what the calls add_holidays and remove_holidays do, over every history *)
Lemma edits_kind : forall c es, match c with
  | NullCalendar => apply_edits c es = NullCalendar
  | SouthKorea ty a r => apply_edits c es = SouthKorea ty
      (a ++ flat_map (fun e => match e with AddHoliday n => [n] | RemoveHoliday _ => [] end) es)
      (r ++ flat_map (fun e => match e with AddHoliday _ => [] | RemoveHoliday n => [n] end) es)
  | UnitedStates ty a r => apply_edits c es = UnitedStates ty
      (a ++ flat_map (fun e => match e with AddHoliday n => [n] | RemoveHoliday _ => [] end) es)
      (r ++ flat_map (fun e => match e with AddHoliday _ => [] | RemoveHoliday n => [n] end) es)
  end.
Proof.
  intros c es. revert c. induction es as [|e es IH]; intro c.
  - destruct c; cbn; rewrite ?app_nil_r; reflexivity.
  - unfold apply_edits in *. cbn [fold_left flat_map]. specialize (IH (apply_edit c e)).
    destruct c as [|ty a r|ty a r], e as [n|n]; cbn [apply_edit add_holidays remove_holidays] in *; rewrite IH;
      rewrite <- ?app_assoc; reflexivity.
Qed.
Lemma existsb_eqb : forall n l, existsb (Z.eqb n) l = true <-> In n l.
Proof.
  intros n l. rewrite existsb_exists. split.
  - intros (x & I & E). apply Z.eqb_eq in E. subst x. exact I.
  - intro I. exists n. split; [exact I|apply Z.eqb_refl].
Qed.
Lemma in_adds : forall n es, In n (flat_map (fun e => match e with AddHoliday n => [n] | RemoveHoliday _ => [] end) es) <-> In (AddHoliday n) es.
Proof.
  intros n es. rewrite in_flat_map. split.
  - intros ([x|x] & I & E); cbn in E; [destruct E as [->|[]]; exact I|destruct E].
  - intro I. exists (AddHoliday n). split; [exact I|left; reflexivity].
Qed.
Lemma in_removes : forall n es, In n (flat_map (fun e => match e with AddHoliday _ => [] | RemoveHoliday n => [n] end) es) <-> In (RemoveHoliday n) es.
Proof.
  intros n es. rewrite in_flat_map. split.
  - intros ([x|x] & I & E); cbn in E; [destruct E|destruct E as [->|[]]; exact I].
  - intro I. exists (RemoveHoliday n). split; [exact I|left; reflexivity].
Qed.

(** A weekday is a holiday after a history of edits iff it was never removed,
    and was a holiday of the fresh calendar or added at some time: the order of
    the calls does not matter, and a removal is for good. *)
Theorem c84_history : forall c es d, c <> NullCalendar -> added c = [] ->
  (match c with SouthKorea _ _ r | UnitedStates _ _ r => r = [] | NullCalendar => True end) ->
  away_from_ends 0 d ->
  let n := date_at (match c with SouthKorea _ _ _ => 9 | _ => -5 end) d in
  is_closed (One (apply_edits c es)) d <->
  (weekend_day n \/ (~ In (RemoveHoliday n) es /\ (is_closed (One c) d \/ In (AddHoliday n) es))).
Proof.
  intros c es d Hc Ha Hr A n. destruct (away_inner 0 d ltac:(lia) A) as [Hd Hi].
  rewrite !closed_iff, !is_holiday_val by assumption. cbn [closed].
  pose proof (edits_kind c es) as K.
  assert (X : forall b1 b2 b3 b4 : bool, forall (P1 P2 P3 P4 : Prop), (b1 = true <-> P1) -> (b2 = true <-> P2) -> (b4 = true <-> P4) ->
     (Ret (if b1 then true else if b2 then false else if b3 then true else if b4 then true else false) = Ret true <->
      P1 \/ ~ P2 /\ (Ret (if b1 then true else if false then false else if b3 then true else if false then true else false) = Ret true \/ P4))).
  { intros [] [] [] [] P1 P2 P3 P4 H1 H2 H4; split; intro Y; try discriminate Y; try reflexivity; try tauto;
      try (destruct (proj1 H1 eq_refl); tauto);
      assert (Q1 := H1); assert (Q2 := H2); assert (Q4 := H4);
      repeat match goal with
      | H : true = true <-> ?P |- _ => pose proof (proj1 H eq_refl); clear H
      | H : false = true <-> ?P |- _ => assert (~ P) by (intro Z0; apply H in Z0; discriminate Z0); clear H
      end; try tauto.
    all: try (right; split; [assumption|]; try (left; reflexivity); try (right; assumption)).
    all: try (exfalso; destruct Y as [Y|[Y1 [Y2|Y2]]]; try discriminate Y2; tauto). }
  destruct c as [|ty a r|ty a r]; [congruence| |]; cbn [added] in Ha; subst a r; rewrite K; cbn [app] in *.
  - assert (CD : cal_day (SouthKorea ty [] []) d = n) by reflexivity.
    unfold cal_day in *. cbn [cal_offset] in *. rewrite CD.
    unfold holiday_on. cbn [is_removed_holiday is_base_holiday is_added_holiday existsb].
    apply (X _ _ _ _ _ _ True _); [apply weekend_iff|rewrite existsb_eqb; apply in_removes|rewrite existsb_eqb; apply in_adds].
  - assert (CD : cal_day (UnitedStates ty [] []) d = n) by reflexivity.
    unfold cal_day in *. cbn [cal_offset] in *. rewrite CD.
    unfold holiday_on. cbn [is_removed_holiday is_base_holiday is_added_holiday existsb].
    apply (X _ _ _ _ _ _ True _); [apply weekend_iff|rewrite existsb_eqb; apply in_removes|rewrite existsb_eqb; apply in_adds].
Qed.
(** So the last call does not win: a day removed and added again stays a business day. *)
Theorem c84_last_call_wins_refuted : exists c d n, away_from_ends 0 d /\ date_at 9 d = n /\
  is_closed (One (apply_edits c [AddHoliday n])) d /\
  is_open (One (apply_edits c [AddHoliday n; RemoveHoliday n; AddHoliday n])) d.
Proof.
  exists (new_south_korea KrKrx), (midnight 2024 5 7 9), (day_number 2024 5 7).
  split. { split; [|unfold midnight; cbn [od_day]; change (day_number 2024 5 7) with 19850; unfold date_min, date_max; lia].
    unfold odt_ok, midnight. cbn [od_day od_ns od_off]. split; [reflexivity|]. unfold day_ns. lia. }
  repeat split; vm_compute; reflexivity.
Qed.
(** the null calendar accepts the calls and ignores them *)
Theorem c84_null_calendar_ignores_edits : forall es, apply_edits NullCalendar es = NullCalendar.
Proof. intro es. exact (edits_kind NullCalendar es). Qed.

Example c84_hypotheses_met : let n := day_number 2024 5 7 in
  away_from_ends 0 (midnight 2024 5 6 9) /\ date_at 9 (midnight 2024 5 7 9) = n /\
  is_open (One (new_south_korea KrKrx)) (midnight 2024 5 7 9) /\
  is_closed (One (apply_edits (new_south_korea KrKrx) [AddHoliday n; RemoveHoliday (n - 1)])) (midnight 2024 5 7 9) /\
  is_open (One (apply_edits (new_south_korea KrKrx) [AddHoliday n; RemoveHoliday (n - 1)])) (midnight 2024 5 6 9).
Proof. cbv zeta. split; [apply away_example; lia|]. repeat split; vm_compute; reflexivity. Qed.

(** ** C85: a joint calendar is closed when one of its calendars is; order and
    repetition do not matter; its own is_business_day agrees with the trait's *)
Theorem c85_joint_is_union : forall cs d, away_from_ends 0 d ->
  (is_closed (Joint cs) d <-> exists c, In c cs /\ is_closed (One c) d) /\
  (is_open (Joint cs) d <-> forall c, In c cs -> is_open (One c) d).
Proof.
  intros cs d A. destruct (away_inner 0 d ltac:(lia) A) as [Hd Hi].
  assert (V : forall c, is_closed (One c) d <-> holiday_on c (cal_day c d) = true).
  { intro c. rewrite closed_iff, is_holiday_val by assumption. cbn [closed]. split; [intro H; injection H; auto|intros ->; reflexivity]. }
  assert (W : forall c, is_open (One c) d <-> holiday_on c (cal_day c d) = false).
  { intro c. rewrite open_iff, is_holiday_val by assumption. cbn [closed]. split; [intro H; injection H; auto|intros ->; reflexivity]. }
  rewrite closed_iff, open_iff, is_holiday_val by assumption. cbn [closed]. split.
  - split.
    + intro H. injection H as H. apply existsb_exists in H. destruct H as (c & I & H). exists c. rewrite V. auto.
    + intros (c & I & H). apply V in H. f_equal. apply existsb_exists. exists c. auto.
  - split.
    + intros H c I. injection H as H. apply W. destruct (holiday_on c (cal_day c d)) eqn:E; [|reflexivity].
      assert (X : existsb (fun c => holiday_on c (cal_day c d)) cs = true) by (apply existsb_exists; exists c; auto). congruence.
    + intro H. f_equal. destruct (existsb _ cs) eqn:E; [|reflexivity]. apply existsb_exists in E. destruct E as (c & I & E).
      specialize (H c I). apply W in H. congruence.
Qed.
Theorem c85_order_irrelevant : forall cs cs' d, away_from_ends 0 d -> (forall c, In c cs <-> In c cs') ->
  is_business_day (Joint cs) d = is_business_day (Joint cs') d.
Proof.
  intros cs cs' d A P. destruct (away_inner 0 d ltac:(lia) A) as [Hd Hi].
  unfold is_business_day. rewrite !is_holiday_val by assumption. cbn [obind closed]. do 2 f_equal.
  apply eq_true_iff_eq. rewrite !existsb_exists. split; intros (c & I & E); exists c; (split; [apply P; exact I|exact E]).
Qed.
Theorem c85_two_is_business_day : forall cs d, joint_is_business_day cs d = is_business_day (Joint cs) d.
Proof. intros cs d. exact (all_any calendar (fun c => cal_is_holiday c d) cs). Qed.
Theorem c85_new : forall cs, (new_joint cs = RErr <-> cs = []) /\ (cs <> [] -> new_joint cs = ROk cs).
Proof. intros [|c cs]; split; try split; intro H; try discriminate; try reflexivity; congruence. Qed.
Example c85_hypotheses_met : away_from_ends 0 (midnight 2024 5 6 9) /\
  is_closed (Joint [new_united_states UsNyse; new_south_korea KrKrx]) (midnight 2024 5 6 9) /\
  is_closed (One (new_united_states UsNyse)) (midnight 2024 5 6 9) /\
  is_open (Joint [new_united_states UsNyse; new_south_korea KrKrx]) (midnight 2024 5 8 9).
Proof. split; [apply away_example; lia|]. repeat split; vm_compute; reflexivity. Qed.

(** ** C86: the US settlement and Federal Reserve calendars *)
Lemma us_closed_days : forall ty d, away_from_ends 0 d ->
  (is_closed (One (new_united_states ty)) d <-> holiday_on (new_united_states ty) (date_at (-5) d) = true).
Proof.
  intros ty d A. destruct (away_inner 0 d ltac:(lia) A) as [Hd Hi].
  rewrite closed_iff, is_holiday_val by assumption. cbn [closed].
  change (cal_day (new_united_states ty) d) with (date_at (-5) d). split; [intro H; injection H; auto|intros ->; reflexivity].
Qed.
Lemma kr_closed_days : forall ty d, away_from_ends 0 d ->
  (is_closed (One (new_south_korea ty)) d <-> holiday_on (new_south_korea ty) (date_at 9 d) = true).
Proof.
  intros ty d A. destruct (away_inner 0 d ltac:(lia) A) as [Hd Hi].
  rewrite closed_iff, is_holiday_val by assumption. cbn [closed].
  change (cal_day (new_south_korea ty) d) with (date_at 9 d). split; [intro H; injection H; auto|intros ->; reflexivity].
Qed.
Theorem c86_settlement : forall d, away_from_ends 0 d ->
  (is_closed (One (new_united_states UsSettlement)) d <->
   weekend_day (date_at (-5) d) \/ exists y, settlement_holiday y (date_at (-5) d)).
Proof. intros d A. rewrite us_closed_days by exact A. apply us_settlement_days. Qed.
Theorem c86_federal_reserve : forall d, away_from_ends 0 d ->
  (is_closed (One (new_united_states UsFederalReserve)) d <->
   weekend_day (date_at (-5) d) \/ exists y, federal_reserve_holiday y (date_at (-5) d)).
Proof. intros d A. rewrite us_closed_days by exact A. apply us_federal_reserve_days. Qed.
(** 2021-12-31: New Year's Day 2022 observed; the Federal Reserve works *)
Example c86_hypotheses_met : away_from_ends 0 (midnight 2024 5 6 9) /\
  settlement_holiday 2022 (day_number 2021 12 31) /\
  is_closed (One (new_united_states UsSettlement)) (midnight 2021 12 31 (-5)) /\
  is_open (One (new_united_states UsFederalReserve)) (midnight 2021 12 31 (-5)).
Proof. split; [apply away_example; lia|]. split; [left; reflexivity|]. split; vm_compute; reflexivity. Qed.

(** ** C87: the exchange and bond calendars close on Good Friday... of the
    Orthodox church; all their other days are the published ones *)
Theorem c87_nyse_partial : forall d, away_from_ends 0 d ->
  let n := date_at (-5) d in
  (forall y, ~ good_friday western_easter y n /\ ~ good_friday orthodox_easter y n) ->
  (forall y, n <> day_number y 11 1 /\ n <> day_number y 11 8) ->
  (is_closed (One (new_united_states UsNyse)) d <->
   weekend_day n \/ (exists y, nyse_holiday western_easter election_day y n) \/ listed nyse_closings n \/ paper_crisis n).
Proof.
  intros d A n G E. rewrite us_closed_days by exact A. fold n. rewrite us_nyse_days.
  assert (T : forall y, first_tuesday y n <-> election_day y n).
  { intro y. unfold first_tuesday, election_day. rewrite !nth_weekday_iff by lia.
    destruct (date_fields n) as [[_ V] F].
    assert (W : weekday n = Tuesday <-> weekday (n - 1) = Monday) by (unfold weekday, Tuesday, Monday; Z.to_euclidean_division_equations; lia).
    rewrite W. clear W.
    assert (P : 2 <= date_day n -> date_year (n - 1) = date_year n /\ date_month (n - 1) = date_month n /\ date_day (n - 1) = date_day n - 1).
    { intro D. destruct (date_month_spec n) as [M _].
      assert (Va : valid_date (date_year n) (date_month n) (date_day n - 1)) by (split; [exact M|lia]).
      pose proof (fields_of_date _ _ _ Va) as Q.
      replace (day_number (date_year n) (date_month n) (date_day n - 1)) with (n - 1) in Q by (unfold day_number in *; lia). exact Q. }
    split.
    - intros (H1 & H2 & H3 & H4).
      assert (D1 : date_day n <> 1).
      { intro D1. destruct (E y) as [E1 _]. apply E1. rewrite <- H2, <- H3 at 1. rewrite <- D1 at 1. congruence. }
      destruct (P ltac:(lia)) as (P1 & P2 & P3). rewrite P1, P2, P3. lia.
    - intros (H1 & H2 & H3 & H4).
      assert (V2 : valid_date y 11 (date_day (n - 1) + 1)) by (split; [lia|change (month_days y 11) with 30; lia]).
      destruct (date_fields (n - 1)) as [_ F1]. rewrite H2, H3 in F1.
      assert (Q : n = day_number y 11 (date_day (n - 1) + 1)) by (rewrite day_step; lia).
      pose proof (proj1 (date_is n y 11 _ V2) Q) as (Q1 & Q2 & Q3).
      assert (date_day (n - 1) + 1 <> 8).
      { intro D8. destruct (E y) as [_ E8]. apply E8. rewrite Q. rewrite D8. reflexivity. }
      repeat split; try assumption; lia. }
  assert (X : (exists y, nyse_holiday orthodox_easter first_tuesday y n) <-> (exists y, nyse_holiday western_easter election_day y n)).
  { split; intros (y & H); exists y; unfold nyse_holiday in *; specialize (T y); specialize (G y); tauto. }
  rewrite X. reflexivity.
Qed.
Theorem c87_government_bond_partial : forall d, away_from_ends 0 d ->
  let n := date_at (-5) d in
  (forall y, ~ good_friday western_easter y n /\ ~ good_friday orthodox_easter y n) ->
  (is_closed (One (new_united_states UsGovernmentBond)) d <->
   weekend_day n \/ (exists y, bond_holiday western_easter y n) \/ listed bond_closings n) /\
  (is_closed (One (new_united_states UsSofr)) d <->
   weekend_day n \/ (exists y, sofr_holiday western_easter y n) \/ listed bond_closings n).
Proof.
  intros d A n G. rewrite !us_closed_days by exact A. fold n. rewrite us_government_bond_days, us_sofr_days.
  split.
  - assert (X : (exists y, bond_holiday orthodox_easter y n) <-> (exists y, bond_holiday western_easter y n)).
    { split; intros (y & H); exists y; unfold bond_holiday in *; specialize (G y); tauto. }
    rewrite X. reflexivity.
  - assert (X : (exists y, sofr_holiday orthodox_easter y n) <-> (exists y, sofr_holiday western_easter y n)).
    { split; intros (y & H); exists y; unfold sofr_holiday in *; specialize (G y); tauto. }
    rewrite X. reflexivity.
Qed.
(** What the code does, for every day: *)
Theorem c87_actual : forall d, away_from_ends 0 d -> let n := date_at (-5) d in
  (is_closed (One (new_united_states UsNyse)) d <->
   weekend_day n \/ (exists y, nyse_holiday orthodox_easter first_tuesday y n) \/ listed nyse_closings n \/ paper_crisis n) /\
  (is_closed (One (new_united_states UsGovernmentBond)) d <->
   weekend_day n \/ (exists y, bond_holiday orthodox_easter y n) \/ listed bond_closings n) /\
  (is_closed (One (new_united_states UsSofr)) d <->
   weekend_day n \/ (exists y, sofr_holiday orthodox_easter y n) \/ listed bond_closings n).
Proof.
  intros d A n. rewrite !us_closed_days by exact A. fold n.
  split; [apply us_nyse_days|]. split; [apply us_government_bond_days|apply us_sofr_days].
Qed.
(** The New York Stock Exchange was closed on Good Friday 29 March 2024 and
    open on 3 May 2024 (Good Friday of the Orthodox church). *)
Theorem c87_good_friday_refuted :
  good_friday western_easter 2024 (day_number 2024 3 29) /\
  is_open (One (new_united_states UsNyse)) (midnight 2024 3 29 (-5)) /\
  is_open (One (new_united_states UsGovernmentBond)) (midnight 2024 3 29 (-5)) /\
  is_open (One (new_united_states UsSofr)) (midnight 2024 3 29 (-5)) /\
  good_friday orthodox_easter 2024 (day_number 2024 5 3) /\
  is_closed (One (new_united_states UsNyse)) (midnight 2024 5 3 (-5)) /\
  is_closed (One (new_united_states UsGovernmentBond)) (midnight 2024 5 3 (-5)) /\
  is_closed (One (new_united_states UsSofr)) (midnight 2024 5 3 (-5)).
Proof.
  split; [split; [lia|vm_compute; reflexivity]|]. do 3 (split; [vm_compute; reflexivity|]).
  split; [split; [lia|vm_compute; reflexivity]|]. repeat split; vm_compute; reflexivity.
Qed.
Lemma good_friday_days : forall e y n, (e = western_easter \/ e = orthodox_easter) -> good_friday e y n -> weekday n = Friday.
Proof.
  intros e y n He [Hy ->].
  assert (F : forallb (fun k => let y := 1901 + Z.of_nat k in (weekday (western_easter y) =? 6) && (weekday (orthodox_easter y) =? 6)) (seq 0 299) = true)
    by (vm_compute; reflexivity).
  rewrite forallb_forall in F. specialize (F (Z.to_nat (y - 1901))). cbv zeta in F. rewrite Z2Nat.id in F by lia.
  replace (1901 + (y - 1901)) with y in F by lia. rewrite andb_true_iff, !Z.eqb_eq in F.
  specialize (F ltac:(apply in_seq; lia)). unfold weekday, Friday in *.
  destruct He as [->| ->]; destruct F as [F1 F2]; Z.to_euclidean_division_equations; lia.
Qed.
(** Monday 26 May 2025, Memorial day: the hypotheses of the partial theorems hold *)
Example c87_hypotheses_met : let d := midnight 2025 5 26 (-5) in let n := date_at (-5) d in
  away_from_ends 0 d /\ (forall y, ~ good_friday western_easter y n /\ ~ good_friday orthodox_easter y n) /\
  (forall y, n <> day_number y 11 1 /\ n <> day_number y 11 8) /\ is_closed (One (new_united_states UsNyse)) d.
Proof.
  cbv zeta. change (date_at (-5) (midnight 2025 5 26 (-5))) with (day_number 2025 5 26).
  split. { split; [|unfold midnight; cbn [od_day]; change (day_number 2025 5 26) with 20234; unfold date_min, date_max; lia].
    unfold odt_ok, midnight. cbn [od_day od_ns od_off]. split; [reflexivity|]. unfold day_ns. lia. }
  split.
  { intro y. split; intro G; apply good_friday_days in G; auto; vm_compute in G; discriminate G. }
  split; [|vm_compute; reflexivity].
  intro y. assert (V : valid_date 2025 5 26) by (split; [lia|change (month_days 2025 5) with 31; lia]).
  split; intro E; apply day_number_unique in E; try exact V; try (split; [lia|change (month_days y 11) with 30; lia]); lia.
Qed.

(** ** C88: election days *)
Theorem c88_election_day_partial : forall d y, away_from_ends 0 d -> (y <= 1968 \/ (y <= 1980 /\ y mod 4 = 0)) ->
  weekday (day_number y 11 1) <> Tuesday -> election_day y (date_at (-5) d) ->
  is_closed (One (new_united_states UsNyse)) d.
Proof.
  intros d y A Hy Hw He. apply us_closed_days; [exact A|]. apply us_nyse_days. right. left. exists y.
  unfold nyse_holiday. do 10 right. split; [exact Hy|].
  set (n := date_at (-5) d) in *. unfold election_day, first_tuesday in *. rewrite nth_weekday_iff in * by lia.
  destruct He as (H1 & H2 & H3 & H4).
  assert (V2 : valid_date y 11 (date_day (n - 1) + 1)) by (split; [lia|change (month_days y 11) with 30; lia]).
  destruct (date_fields (n - 1)) as [_ F1]. rewrite H2, H3 in F1.
  assert (Q : n = day_number y 11 (date_day (n - 1) + 1)) by (rewrite day_step; lia).
  pose proof (proj1 (date_is n y 11 _ V2) Q) as (Q1 & Q2 & Q3).
  assert (W : weekday n = Tuesday) by (unfold weekday, Tuesday, Monday in *; Z.to_euclidean_division_equations; lia).
  assert (date_day (n - 1) + 1 <> 8).
  { intro D8. apply Hw. rewrite D8 in Q. unfold weekday, Tuesday in *.
    assert (day_number y 11 8 = day_number y 11 1 + 7) by (unfold day_number; lia). rewrite Q, H in W.
    Z.to_euclidean_division_equations; lia. }
  repeat split; try assumption; lia.
Qed.
(** 8 November 1960: the election of John F. Kennedy; the code closes a week earlier *)
Theorem c88_election_day_refuted : election_day 1960 (day_number 1960 11 8) /\
  is_open (One (new_united_states UsNyse)) (midnight 1960 11 8 (-5)) /\
  is_closed (One (new_united_states UsNyse)) (midnight 1960 11 1 (-5)).
Proof.
  split; [|split; vm_compute; reflexivity]. unfold election_day. apply nth_weekday_iff; [lia|lia|]. vm_compute.
  repeat split; congruence.
Qed.
Example c88_hypotheses_met : election_day 1964 (day_number 1964 11 3) /\ weekday (day_number 1964 11 1) <> Tuesday /\
  is_closed (One (new_united_states UsNyse)) (midnight 1964 11 3 (-5)).
Proof.
  split; [|split; vm_compute; [discriminate|reflexivity]]. unfold election_day. apply nth_weekday_iff; [lia|lia|]. vm_compute.
  repeat split; congruence.
Qed.

(** ** C89: the Korean calendars *)
Theorem c89_settlement : forall d, away_from_ends 0 d ->
  (is_closed (One (new_south_korea KrSettlement)) d <-> weekend_day (date_at 9 d) \/ korean_holiday (date_at 9 d)).
Proof. intros d A. rewrite kr_closed_days by exact A. apply korean_settlement_days. Qed.
Theorem c89_krx : forall d, away_from_ends 0 d ->
  (is_closed (One (new_south_korea KrKrx)) d <->
   weekend_day (date_at 9 d) \/ korean_holiday (date_at 9 d) \/
   exists y, 1951 <= y <= 2050 /\ last_weekday_of_year y (date_at 9 d)).
Proof. intros d A. rewrite kr_closed_days by exact A. apply krx_days. Qed.
(** Year by year the lunar tables give one Lunar New Year, one birthday of
    Buddha and three consecutive days of Chuseok, whole lunar months apart
    (first day of the 1st month, 8th of the 4th, 15th of the 8th). *)
Theorem c89_lunar_tables : forall y,
  (1901 <= y <= 2050 -> day_number y 1 21 <= lunar_new_year y <= day_number y 2 21) /\
  (1901 <= y < 2050 -> let g := lunar_new_year (y + 1) - lunar_new_year y in lunations 12 g \/ lunations 13 g) /\
  (1951 <= y <= 2050 ->
    (exists b, (forall n, listed buddha_days n /\ date_year n = y <-> n = b) /\
       let g := b - 7 - lunar_new_year y in lunations 3 g \/ lunations 4 g) /\
    (exists c, (forall n, listed chuseok_days n /\ date_year n = y <-> c - 1 <= n <= c + 1) /\
       let g := c - 14 - lunar_new_year y in lunations 7 g \/ lunations 8 g)).
Proof.
  intro y. split; [|split].
  - intro H. pose proof seollal_season as F. rewrite forallb_forall in F. specialize (F (Z.to_nat (y - 1901))).
    cbv zeta in F. rewrite Z2Nat.id in F by lia. replace (1901 + (y - 1901)) with y in F by lia.
    rewrite andb_true_iff, !Z.leb_le in F. apply F. apply in_seq. lia.
  - intro H. cbv zeta. pose proof seollal_lunar as F. rewrite forallb_forall in F. specialize (F (Z.to_nat (y - 1901))).
    cbv zeta in F. rewrite Z2Nat.id in F by lia. replace (1901 + (y - 1901)) with y in F by lia.
    rewrite orb_true_iff, !lunationsb_iff in F. apply F. apply in_seq. lia.
  - intro H. split; [exact (buddha_year y H)|exact (chuseok_year y H)].
Qed.
(** After 2050 there is no lunar holiday and no year-end closing. *)
Theorem c89_lunar_holidays_after_2050_refuted : forall d y, away_from_ends 0 d -> 2050 < y -> in_the_year y (date_at 9 d) ->
  forall ty, is_closed (One (new_south_korea ty)) d <-> weekend_day (date_at 9 d) \/ fixed_day korean_fixed (date_at 9 d).
Proof.
  intros d y A Hy Iy ty. set (n := date_at 9 d) in *.
  assert (Y : date_year n = y).
  { apply date_year_unique. unfold in_the_year in Iy. rewrite year_next. pose proof (month_last y) as L.
    change (month_days y 12) with 31 in L. unfold day_number in Iy. rewrite month_start_1 in Iy. lia. }
  assert (K : korean_holiday n <-> fixed_day korean_fixed n).
  { unfold korean_holiday. split; [|tauto]. intros [H|[H|[H|[H|H]]]]; [exact H| | | |]; exfalso.
    - apply (listed_year 2023 2024) in H; [lia|reflexivity|reflexivity].
    - destruct H as (z & Hz & Hn). pose proof (lunar_range z Hz).
      assert (date_year n = z); [|lia]. apply date_year_unique. rewrite year_next.
      assert (365 <= year_days z) by (unfold year_days; destruct (leapb z); lia). lia.
    - apply (listed_year 1951 2050) in H; [lia|apply buddha_tables|apply buddha_tables].
    - apply (listed_year 1951 2050) in H; [lia|apply chuseok_tables|apply chuseok_tables]. }
  destruct ty.
  - rewrite c89_krx by exact A. fold n. rewrite K.
    assert (X : ~ exists z, 1951 <= z <= 2050 /\ last_weekday_of_year z n).
    { intros (z & Hz & (I & _)). assert (date_year n = z); [|lia].
      apply date_year_unique. unfold in_the_year in I. rewrite year_next. pose proof (month_last z) as L.
      change (month_days z 12) with 31 in L. unfold day_number in I. rewrite month_start_1 in I. lia. }
    tauto.
  - rewrite c89_settlement by exact A. fold n. rewrite K. reflexivity.
Qed.
Example c89_hypotheses_met : away_from_ends 0 (midnight 2024 5 6 9) /\
  date_at 9 (midnight 2024 2 9 9) = lunar_new_year 2024 - 1 /\
  is_closed (One (new_south_korea KrSettlement)) (midnight 2024 2 9 9) /\
  is_closed (One (new_south_korea KrKrx)) (midnight 2023 12 29 9) /\ is_open (One (new_south_korea KrSettlement)) (midnight 2023 12 29 9).
Proof. split; [apply away_example; lia|]. repeat split; vm_compute; reflexivity. Qed.

(** ** C90: display_holidays prints the holidays of the interval, in order *)
Theorem c90_display : forall a from upto inc, odt_ok from -> odt_ok upto ->
  date_min + 6 <= od_day from <= date_max - 20 -> date_min + 6 <= od_day upto <= date_max - 20 ->
  exists from' out, instant from' = instant from /\ display_holidays a from upto inc = Ret out /\
    StronglySorted (fun x y => instant x < instant y) out /\
    forall e, In e out <-> exists k, 0 <= k /\ e = later from' k /\ instant e <= instant upto /\ is_closed a e /\
      (inc = true \/ is_weekend a e = Ret false).
Proof.
  intros a from upto inc Hf Hu Rf Ru.
  assert (D : forall off, -18000 <= off <= 32400 -> forall d, odt_ok d -> date_min + 6 <= od_day d <= date_max - 20 ->
     exists d', to_offset off d = Ret d' /\ instant d' = instant d /\ odt_ok d' /\ date_min + 2 <= od_day d' <= date_max - 10).
  { intros off Ho d (A1 & A2 & A3) R. pose proof (local_day_near off d A2 A3 Ho) as N.
    assert (X : in_range (local_day off d) = true) by (unfold in_range; rewrite andb_true_iff, !Z.leb_le; lia).
    destruct (to_offset_ok off d X) as (d' & E & I & O & Dy & Ns). exists d'. split; [exact E|]. split; [exact I|].
    split; [|lia]. unfold odt_ok. rewrite Dy, O. repeat split; [exact X|lia|lia|lia|lia]. }
  assert (L : forall f u, odt_ok f -> odt_ok u -> instant u = instant upto -> date_min + 2 <= od_day f -> od_day u <= date_max - 10 ->
    exists out, display_loop a f u inc = Ret out /\ StronglySorted (fun x y => instant x < instant y) out /\
    forall e, In e out <-> exists k, 0 <= k /\ e = later f k /\ instant e <= instant upto /\ is_closed a e /\
      (inc = true \/ is_weekend a e = Ret false)).
  { intros f u A B E C1 C2. rewrite <- E. exact (display_loop_spec a f u inc A C1 B C2). }
  destruct a as [c|cs].
  - destruct c as [|ty l r|ty l r]; cbn [display_holidays].
    + destruct (L from upto Hf Hu eq_refl ltac:(lia) ltac:(lia)) as (out & O). exists from, out. auto.
    + destruct (D 32400 ltac:(lia) from Hf Rf) as (f & F1 & F2 & F3 & F4).
      destruct (D 32400 ltac:(lia) upto Hu Ru) as (u & U1 & U2 & U3 & U4).
      destruct (L f u F3 U3 U2 ltac:(lia) ltac:(lia)) as (out & O). exists f, out. split; [exact F2|].
      cbn [cal_offset]. rewrite F1. cbn [obind]. rewrite U1. cbn [obind]. exact O.
    + destruct (D (-18000) ltac:(lia) from Hf Rf) as (f & F1 & F2 & F3 & F4).
      destruct (D (-18000) ltac:(lia) upto Hu Ru) as (u & U1 & U2 & U3 & U4).
      destruct (L f u F3 U3 U2 ltac:(lia) ltac:(lia)) as (out & O). exists f, out. split; [exact F2|].
      cbn [cal_offset]. rewrite F1. cbn [obind]. rewrite U1. cbn [obind]. exact O.
  - destruct (L from upto Hf Hu eq_refl ltac:(lia) ltac:(lia)) as (out & O). exists from, out. auto.
Qed.
Example c90_hypotheses_met :
  display_holidays (One (new_south_korea KrKrx)) (midnight 2024 5 1 9) (midnight 2024 5 20 9) false
  = Ret [midnight 2024 5 1 9; midnight 2024 5 6 9; midnight 2024 5 15 9].
Proof. vm_compute. reflexivity. Qed.

(** ** C91: Following and Preceding find the same point in time whatever the
    offset of the date; the modified conventions do not *)
Theorem c91_offset_irrelevant_partial : forall a d e cv r,
  (match a with One c => c <> NullCalendar | Joint cs => ~ In NullCalendar cs end) ->
  cv = Unadjusted \/ cv = Following \/ cv = Preceding ->
  away_from_ends (span a) d -> away_from_ends (span a) e -> instant d = instant e ->
  adjust a d cv = Ret (ROk r) -> exists r', adjust a e cv = Ret (ROk r') /\ instant r' = instant r.
Proof.
  intros a d e cv r Hn Hc A B E R. destruct (away_roomy a d A) as [Hd Hr]. destruct (away_roomy a e B) as [He Hr'].
  pose proof (span_pos a) as SP.
  assert (O : forall k, is_open a (later d k) <-> is_open a (later e k)).
  { intro k. rewrite !open_iff. destruct (holiday_instant a (later d k) (later e k) Hn) as [X _]; [rewrite !instant_later, E; reflexivity|].
    rewrite X. reflexivity. }
  assert (Cl : forall k, is_closed a (later d k) <-> is_closed a (later e k)).
  { intro k. rewrite !closed_iff. destruct (holiday_instant a (later d k) (later e k) Hn) as [X _]; [rewrite !instant_later, E; reflexivity|].
    rewrite X. reflexivity. }
  assert (W : forall s, s = 1 \/ s = -1 -> forall x, while_loop (adjust_turn a s) d = Ret x ->
    exists x', while_loop (adjust_turn a s) e = Ret x' /\ instant x' = instant x).
  { intros s Hs x X. destruct (walk_near a s d Hs Hd (inner_roomy _ _ Hr)) as (k & _ & K & Y).
    { unfold roomy in Hr. destruct Hs as [->| ->]; lia. }
    destruct (walk_near a s e Hs He (inner_roomy _ _ Hr')) as (k' & _ & K' & Y').
    { unfold roomy in Hr'. destruct Hs as [->| ->]; lia. }
    assert (Q : k = k').
    { apply (nearest_unique a s e); [|exact K']. destruct K as (K1 & K2 & K3). split; [exact K1|]. split; [apply O; exact K2|].
      intros j Hj. apply Cl. exact (K3 j Hj). }
    subst k'. rewrite Y in X. injection X as <-. exists (later e (s * k)). split; [exact Y'|]. rewrite !instant_later, E. reflexivity. }
  destruct Hc as [->|[->| ->]]; unfold adjust in *.
  - injection R as <-. exists e. auto.
  - unfold adjust_following in *. destruct (while_loop (adjust_turn a 1) d) as [x| |] eqn:X; try discriminate R.
    cbn [obind] in R. injection R as <-. destruct (W 1 (or_introl eq_refl) x X) as (x' & X1 & X2). exists x'. rewrite X1. auto.
  - unfold adjust_preceding in *. destruct (while_loop (adjust_turn a (-1)) d) as [x| |] eqn:X; try discriminate R.
    cbn [obind] in R. injection R as <-. destruct (W (-1) (or_intror eq_refl) x X) as (x' & X1 & X2). exists x'. rewrite X1. auto.
Qed.
(** Saturday 1 June 2024 05:00 in Seoul is 31 May 20:00 in Greenwich: handed
    over the first way it is moved to Monday 3 June, the second way to Friday 31 May. *)
Theorem c91_modified_following_refuted : let a := One (new_south_korea KrKrx) in
  let d := Odt (day_number 2024 6 1) (5 * 3600000000000) 32400 in
  let e := Odt (day_number 2024 5 31) (20 * 3600000000000) 0 in
  instant d = instant e /\
  adjust a d ModifiedFollowing = Ret (ROk (later d 2)) /\ adjust a e ModifiedFollowing = Ret (ROk (later e (-1))).
Proof. repeat split; vm_compute; reflexivity. Qed.
Example c91_hypotheses_met : let a := One (new_south_korea KrKrx) in
  let d := Odt (day_number 2024 6 1) (5 * 3600000000000) 32400 in
  let e := Odt (day_number 2024 5 31) (20 * 3600000000000) 0 in
  away_from_ends (span a) d /\ away_from_ends (span a) e /\
  adjust a d Following = Ret (ROk (later d 2)) /\ adjust a e Following = Ret (ROk (later e 2)).
Proof.
  cbv zeta. unfold away_from_ends, odt_ok. cbn [od_day od_ns od_off]. unfold date_min, date_max, day_ns, span. cbn [all_added added new_south_korea length].
  change (day_number 2024 6 1) with 19875. change (day_number 2024 5 31) with 19874.
  repeat split; try lia; vm_compute; reflexivity.
Qed.
Print Assumptions c77_leap_year.
Print Assumptions c77_last_day_of_month.
Print Assumptions c78_status_is_of_the_instant.
Print Assumptions c78_null_calendar_refuted.
Print Assumptions c79_following.
Print Assumptions c80_preceding.
Print Assumptions c81_modified_following.
Print Assumptions c81_modified_preceding.
Print Assumptions c81_every_month_has_a_business_day.
Print Assumptions c82_business_day_stays.
Print Assumptions c82_idempotent.
Print Assumptions c82_monotone.
Print Assumptions c83_business_days_are_near.
Print Assumptions c83_unedited_spans.
Print Assumptions c84_history.
Print Assumptions c84_last_call_wins_refuted.
Print Assumptions c84_null_calendar_ignores_edits.
Print Assumptions c85_joint_is_union.
Print Assumptions c85_order_irrelevant.
Print Assumptions c85_two_is_business_day.
Print Assumptions c85_new.
Print Assumptions c86_settlement.
Print Assumptions c86_federal_reserve.
Print Assumptions c87_nyse_partial.
Print Assumptions c87_government_bond_partial.
Print Assumptions c87_actual.
Print Assumptions c87_good_friday_refuted.
Print Assumptions c88_election_day_partial.
Print Assumptions c88_election_day_refuted.
Print Assumptions c89_settlement.
Print Assumptions c89_krx.
Print Assumptions c89_lunar_tables.
Print Assumptions c89_lunar_holidays_after_2050_refuted.
Print Assumptions c90_display.
Print Assumptions c91_offset_irrelevant_partial.
Print Assumptions c91_modified_following_refuted.
