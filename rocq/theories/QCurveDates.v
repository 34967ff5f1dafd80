(** QCurveDates.v -- the dates of a zero curve's cached factors are in order,
    and so are their times. *)
From Coq Require Import ZArith List Bool Reals Lia Lra Ascii String.
From Flocq Require Import Core IEEE754.BinarySingleNaN.
From Verif Require Import Base CivilSpec FloatModel FloatFacts KrxModel QDateModel QDateProofs QCalSpec QCalRules QCalProps QPeriodModel QPeriodSpec QPeriodProofs QPeriodProps
  QYearModel QYearProofs QYearSpec QYearProps QFindModel QInterpModel QDivModel QCurveModel QCurveSpec.
Import ListNotations.
Open Scope Z_scope.

(** ** Dates a day apart have times in the same order *)
Lemma starts_gap : forall a b, a <= b -> year_start b - year_start a <= 366 * (b - a).
Proof.
  intros a b H. replace b with (a + Z.of_nat (Z.to_nat (b - a))) by lia. generalize (Z.to_nat (b - a)). intro n.
  induction n as [|n IH]; [rewrite Z.add_0_r; lia|].
  replace (a + Z.of_nat (S n)) with ((a + Z.of_nat n) + 1) by lia. rewrite year_next. pose proof (year_days_pos (a + Z.of_nat n)). lia.
Qed.
(** position of a clock reading: year and part of the year *)
Definition pos (y c : Z) : R := (IZR y + IZR (c - day_ns * year_start y) / IZR (day_ns * year_days y))%R.
Lemma part_bound : forall n l, 0 <= n -> 365 <= l <= 366 -> (IZR n / IZR (day_ns * 366) <= IZR n / IZR (day_ns * l))%R.
Proof.
  intros n l Hn Hl. unfold Rdiv. apply Rmult_le_compat_l; [apply IZR_le; lia|].
  apply Rinv_le; [apply IZR_lt; unfold day_ns; lia|apply IZR_le; unfold day_ns; lia].
Qed.
Lemma pos_gap : forall y1 y2 a b, y1 <= y2 -> a <= b ->
  day_ns * year_start y1 <= a <= day_ns * year_start (y1 + 1) -> day_ns * year_start y2 <= b <= day_ns * year_start (y2 + 1) ->
  (IZR (b - a) / IZR (day_ns * 366) <= pos y2 b - pos y1 a)%R.
Proof.
  intros y1 y2 a b Hy Hab Ha Hb. pose proof (year_days_pos y1) as D1. pose proof (year_days_pos y2) as D2.
  pose proof (year_next y1) as N1. pose proof (year_next y2) as N2. unfold pos.
  destruct (Z.eq_dec y1 y2) as [<-|N].
  - replace (b - a) with ((b - day_ns * year_start y1) - (a - day_ns * year_start y1)) by lia.
    pose proof (part_bound (b - a) (year_days y1) ltac:(lia) D1) as P.
    replace (b - a) with ((b - day_ns * year_start y1) - (a - day_ns * year_start y1)) in P by lia.
    rewrite (minus_IZR (b - _)) in P |- *. unfold Rdiv in *. lra.
  - pose proof (starts_gap (y1 + 1) y2 ltac:(lia)) as G.
    pose proof (part_bound (day_ns * year_start (y1 + 1) - a) (year_days y1) ltac:(lia) D1) as P1.
    pose proof (part_bound (b - day_ns * year_start y2) (year_days y2) ltac:(lia) D2) as P2.
    assert (E : (IZR (a - day_ns * year_start y1) / IZR (day_ns * year_days y1) = 1 - IZR (day_ns * year_start (y1 + 1) - a) / IZR (day_ns * year_days y1))%R).
    { replace (a - day_ns * year_start y1) with (day_ns * year_days y1 - (day_ns * year_start (y1 + 1) - a)) by (rewrite N1; ring).
      rewrite (minus_IZR (day_ns * year_days y1)). unfold Rdiv. rewrite Rmult_minus_distr_r, Rinv_r; [reflexivity|]. apply not_0_IZR. unfold day_ns. lia. }
    rewrite E. assert (Z0 : (0 < IZR (day_ns * 366))%R) by (apply IZR_lt; reflexivity).
    assert (M : (IZR (b - a) / IZR (day_ns * 366) <= IZR (day_ns * year_start (y1 + 1) - a) / IZR (day_ns * 366) + IZR (b - day_ns * year_start y2) / IZR (day_ns * 366) + IZR (y2 - y1 - 1))%R).
    { apply Rmult_le_reg_r with (1 := Z0). rewrite !Rmult_plus_distr_r. unfold Rdiv. rewrite !Rmult_assoc, Rinv_l, !Rmult_1_r by lra.
      rewrite <- mult_IZR, <- !plus_IZR. apply IZR_le. unfold day_ns in *. nia. }
    rewrite (minus_IZR (y2 - y1)), (minus_IZR y2) in M. lra.
Qed.
Lemma time_pos : forall s e y1 y2, odt_ok s -> odt_ok e -> in_the_year y1 (od_day s) -> in_the_year y2 (od_day e) -> od_off s = od_off e -> y1 <= y2 ->
  exists x, get_time_difference s e = Ret x /\ within_f32 x (pos y2 (clock e) - pos y1 (clock s) + (1 / len y2 - 1 / len y1)) (IZR (y2 - y1 + 1) / 1048576).
Proof.
  intros s e y1 y2 Hs He Y1 Y2 Ho M. destruct (time_value s e y1 y2 Hs He Y1 Y2 Ho M) as (x & X & v & F & E). exists x. split; [exact X|]. exists v. split; [exact F|].
  unfold pos. rewrite minus_IZR in E. match type of E with (Rabs ?u <= _)%R => match goal with |- (Rabs ?w <= _)%R => replace w with u by lra end end. exact E.
Qed.
Lemma inv_len : forall y, (/ 366 <= 1 / len y <= / 365)%R.
Proof.
  intro y. unfold len. pose proof (year_days_pos y) as D. unfold Rdiv. rewrite Rmult_1_l.
  split; apply Rinv_le; try (apply IZR_le; lia); try lra. apply IZR_lt. lia.
Qed.
Lemma apart : forall s e1 e2 y0 y1 y2, odt_ok s -> odt_ok e1 -> odt_ok e2 -> in_the_year y0 (od_day s) -> in_the_year y1 (od_day e1) -> in_the_year y2 (od_day e2) ->
  od_off s = od_off e1 -> od_off s = od_off e2 -> y0 <= y1 -> y2 <= y0 + 1000 -> instant e1 + day_ns <= instant e2 ->
  exists x1 x2 v1 v2, get_time_difference s e1 = Ret x1 /\ get_time_difference s e2 = Ret x2 /\ fin 24 128 x1 v1 /\ fin 24 128 x2 v2 /\ (v1 + / 2048 <= v2)%R.
Proof.
  intros s e1 e2 y0 y1 y2 Hs H1 H2 Y0 Y1 Y2 O1 O2 L0 L2 D.
  destruct (later_year e1 e2 y1 y2 Y1 Y2 H1 H2 ltac:(congruence) ltac:(unfold day_ns in D; lia)) as [M C].
  destruct (time_pos s e1 y0 y1 Hs H1 Y0 Y1 O1 L0) as (x1 & X1 & v1 & F1 & E1).
  destruct (time_pos s e2 y0 y2 Hs H2 Y0 Y2 O2 ltac:(lia)) as (x2 & X2 & v2 & F2 & E2).
  exists x1, x2, v1, v2. split; [exact X1|]. split; [exact X2|]. split; [exact F1|]. split; [exact F2|].
  assert (CD : day_ns <= clock e2 - clock e1) by (unfold instant in D; rewrite <- O1, <- O2 in D; unfold clock; lia).
  pose proof (pos_gap y1 y2 (clock e1) (clock e2) M C (clock_in_year e1 y1 H1 Y1) (clock_in_year e2 y2 H2 Y2)) as G.
  assert (G' : (/ 366 <= IZR (clock e2 - clock e1) / IZR (day_ns * 366))%R).
  { replace (/ 366)%R with (IZR day_ns / IZR (day_ns * 366))%R.
    - unfold Rdiv. apply Rmult_le_compat_r; [left; apply Rinv_0_lt_compat; apply IZR_lt; reflexivity|apply IZR_le; exact CD].
    - rewrite mult_IZR. field. apply not_0_IZR. discriminate. }
  pose proof (inv_len y0). pose proof (inv_len y1). pose proof (inv_len y2).
  apply Rabs_le_inv in E1. apply Rabs_le_inv in E2.
  assert (B1 : (IZR (y1 - y0 + 1) <= 1001)%R) by (apply IZR_le; lia). assert (B2 : (IZR (y2 - y0 + 1) <= 1001)%R) by (apply IZR_le; lia). lra.
Qed.

(** ** Months later *)
Lemma later_month : forall y m d k1 k2 a b, valid_date y m d -> k1 < k2 -> months_after y m d k1 a -> months_after y m d k2 b -> a + 28 <= b.
Proof.
  intros y m d k1 k2 a b [Vm Vd] K (y1 & m1 & H1 & E1 & ->) (y2 & m2 & H2 & E2 & ->).
  pose proof (month_days_range y1 m1) as R1. pose proof (month_days_range y2 m2) as R2.
  unfold day_number. destruct (Z.lt_trichotomy y1 y2) as [L|[<-|L]]; [| |lia].
  - pose proof (year_start_mono y1 y2 L) as YS. pose proof (month_last y1) as ML.
    assert (A1 : month_start y1 m1 + month_days y1 m1 <= year_days y1 /\ (m1 < 12 -> month_start y1 m1 + month_days y1 m1 + 28 <= year_days y1)).
    { destruct (Z.eq_dec m1 12) as [->|N]; [split; lia|]. pose proof (month_next y1 m1 ltac:(lia)) as MN.
      pose proof (month_days_range y1 12). destruct (Z.eq_dec (m1 + 1) 12) as [Q|Q]; [rewrite Q in MN; split; intros; lia|].
      pose proof (month_start_mono y1 (m1 + 1) 12 ltac:(lia) ltac:(lia) ltac:(lia)) as MM. pose proof (month_days_range y1 (m1 + 1)). split; intros; lia. }
    assert (A2 : 0 <= month_start y2 m2 /\ (1 < m2 -> 28 <= month_start y2 m2)).
    { destruct (Z.eq_dec m2 1) as [->|N]; [rewrite month_start_1; lia|].
      pose proof (month_start_mono y2 1 m2 ltac:(lia) ltac:(lia) ltac:(lia)) as MM. rewrite month_start_1 in MM. pose proof (month_days_range y2 1). lia. }
    destruct (Z.eq_dec m1 12) as [->|N1]; [destruct (Z.eq_dec m2 1) as [->|N2]|]; lia.
  - assert (m1 < m2) by lia. pose proof (month_next y1 m1 ltac:(lia)) as MN.
    destruct (Z.eq_dec (m1 + 1) m2) as [<-|N]; [lia|]. pose proof (month_start_mono y1 (m1 + 1) m2 ltac:(lia) ltac:(lia) ltac:(lia)) as MM. pose proof (month_days_range y1 (m1 + 1)). lia.
Qed.
Lemma months_after_zero : forall y m d, valid_date y m d -> months_after y m d 0 (day_number y m d).
Proof. intros y m d [Vm Vd]. exists y, m. split; [exact Vm|]. split; [lia|]. rewrite Z.min_l by lia. reflexivity. Qed.
(** in two leaps, never later than in one *)
Lemma two_leaps : forall y m d k1 k2 n1 n2 n3 y1 m1 d1, valid_date y m d -> months_after y m d k1 n1 -> valid_date y1 m1 d1 -> n1 = day_number y1 m1 d1 ->
  months_after y1 m1 d1 k2 n2 -> months_after y m d (k1 + k2) n3 -> n2 <= n3.
Proof.
  intros y m d k1 k2 n1 n2 n3 y1 m1 d1 [Vm Vd] (ya & ma & Ha & Ea & ->) V1 E (yb & mb & Hb & Eb & ->) (yc & mc & Hc & Ec & ->).
  pose proof (month_days_range ya ma) as R. assert (VA : valid_date ya ma (Z.min d (month_days ya ma))) by (split; lia).
  destruct (proj1 (date_is _ ya ma _ VA) eq_refl) as (A1 & A2 & A3). destruct (proj1 (date_is _ y1 m1 d1 V1) E) as (B1 & B2 & B3).
  assert (ya = y1) by congruence. assert (ma = m1) by congruence. assert (Z.min d (month_days ya ma) = d1) by congruence.
  subst y1 m1. assert (yb = yc /\ mb = mc) as [-> ->] by lia. unfold day_number. lia.
Qed.

(** ** The dates *)
Section Dates.
Context (y m d ns off : Z) (C : civil_ok y m d ns) (R : y + 100 <= 9999).
Notation E0 := (civil y m d ns off).
Notation n0 := (day_number y m d).
Lemma year_back : forall k, 0 <= k <= 1200 -> representable_year (year_after y m k).
Proof using C R.
  intros k K. destruct C as (Y & [Vm Vd] & _). unfold representable_year, year_after in *. Z.to_euclidean_division_equations. lia.
Qed.
Lemma tenor_months : forall ds u j k, numeral ds -> value_of ds < 2 ^ 31 -> months_of u = Some j -> j * value_of ds = k -> 0 <= k <= 1200 ->
  exists n', add_period E0 (ds ++ unit_name u) = Ret (Odt n' ns off) /\ months_after y m d k n'.
Proof using C R.
  intros ds u j k N L U K B. destruct (c97_add_months y m d ns off ds u j C N L U) as [A _]. rewrite K in A. apply A. apply year_back. exact B.
Qed.
Lemma n0_range : date_min <= n0 /\ n0 + 36500 <= date_max.
Proof using C R.
  destruct C as (Y & V & _). unfold representable_year in Y.
  assert (A : date_year n0 = y) by (apply (proj1 (date_is _ y m d V) eq_refl)).
  pose proof (date_year_spec n0) as S1. rewrite A in S1. unfold date_min, date_max. split.
  - apply Z.le_trans with (year_start y); [|lia]. change (-4371587) with (year_start (-9999)).
    destruct (Z.eq_dec y (-9999)) as [->|N]; [lia|]. pose proof (year_start_mono (-9999) y ltac:(lia)). pose proof (year_days_pos (-9999)). lia.
  - assert (year_start (y + 1) + 36500 <= year_start (y + 101)).
    { clear. unfold year_start, leaps_to. Z.to_euclidean_division_equations. lia. }
    assert (year_start (y + 101) <= year_start 10000).
    { destruct (Z.eq_dec (y + 101) 10000) as [->|N]; [lia|]. pose proof (year_start_mono (y + 101) 10000 ltac:(lia)). pose proof (year_days_pos (y + 101)). lia. }
    change (year_start 10000) with 2932897 in *. rewrite year_next in *. lia.
Qed.
Lemma tenor_days : forall ds u j k, numeral ds -> value_of ds < 2 ^ 31 -> length_of u = Some (j * day_ns) -> j * value_of ds = k -> 0 <= k <= 31 ->
  add_period E0 (ds ++ unit_name u) = Ret (Odt (n0 + k) ns off).
Proof using C R.
  intros ds u j k N L U K B. destruct C as (_ & _ & W). pose proof n0_range as RG.
  assert (OW : odt_whole E0) by exact W.
  destruct (c98_shift E0 ds u (j * day_ns) OW N ltac:(lia) U add_period 1 (or_introl eq_refl)) as [A _].
  assert (Q : instant E0 + 1 * (value_of ds * (j * day_ns)) = instant E0 + k * day_ns) by (rewrite <- K; ring). rewrite Q in A.
  assert (DI : day_of_instant E0 (instant E0 + k * day_ns) = n0 + k).
  { unfold day_of_instant, instant, civil. cbn [od_day od_ns od_off]. change (24 * 3600 * 1000000000) with day_ns.
    replace (n0 * day_ns + ns - off * 1000000000 + k * day_ns + off * 1000000000) with (ns + (n0 + k) * day_ns) by ring.
    rewrite Z.div_add by discriminate. rewrite Z.div_small by exact W. lia. }
  destruct A as (d' & E & I & O & W'); [rewrite DI; lia|]. rewrite E. f_equal. destruct d' as [dd dn dof]. unfold instant, civil, odt_whole in *. cbn [od_day od_ns od_off] in *. subst dof.
  assert (dd = n0 + k /\ dn = ns) as [-> ->]; [|reflexivity]. clear - I W W'. unfold day_ns in *. lia.
Qed.
Lemma tenor_half : forall ds k, numeral ds -> value_of ds < 2 ^ 31 -> 12 * value_of ds = k -> 0 <= k <= 600 ->
  exists n1 n2, months_after y m d k n1 /\ add_period E0 ((ds ++ unit_name UY) ++ (str "6" ++ unit_name UM)) = Ret (Odt n2 ns off) /\
    exists y1 m1 d1, valid_date y1 m1 d1 /\ n1 = day_number y1 m1 d1 /\ months_after y1 m1 d1 6 n2.
Proof using C R.
  intros ds k N L K B. destruct (tenor_months ds UY 12 k N L eq_refl K ltac:(lia)) as (n1 & A1 & M1).
  pose proof C as (Y & [Vm Vd] & W). pose proof M1 as (y1 & m1 & H1 & Q1 & Q2).
  assert (NS : numeral (str "6")) by (split; [discriminate|]; apply Forall_cons; [cbn; lia|apply Forall_nil]).
  pose proof (month_days_range y1 m1) as RD.
  assert (V1 : valid_date y1 m1 (Z.min d (month_days y1 m1))) by (split; lia).
  pose proof (year_back k ltac:(lia)) as YR. assert (Y1 : year_after y m k = y1) by (unfold year_after; Z.to_euclidean_division_equations; lia). rewrite Y1 in YR.
  assert (C1 : civil_ok y1 m1 (Z.min d (month_days y1 m1)) ns) by (split; [exact YR|]; split; [exact V1|exact W]).
  destruct (c97_add_months y1 m1 (Z.min d (month_days y1 m1)) ns off (str "6") UM 1 C1 NS ltac:(reflexivity) eq_refl) as [A2 _].
  change (1 * value_of (str "6")) with 6 in A2.
  destruct A2 as (n2 & A2 & M2).
  { unfold representable_year, year_after in *. Z.to_euclidean_division_equations. lia. }
  exists n1, n2. split; [exact M1|]. split; [|exists y1, m1, (Z.min d (month_days y1 m1)); auto].
  assert (KT : keeps_time [(ds, UY)]) by (apply Forall_cons; [cbn; auto|apply Forall_nil]).
  destruct (c99_left_to_right_partial E0 [(ds, UY)] [(str "6", UM)]) as [A3 _].
  { exact W. }
  { apply Forall_cons; [exact N|apply Forall_nil]. }
  { apply Forall_cons; [exact NS|apply Forall_nil]. }
  { discriminate. }
  { discriminate. }
  { left. exact KT. }
  change (written ([(ds, UY)] ++ [(str "6", UM)])) with ((ds ++ unit_name UY) ++ (str "6" ++ unit_name UM)) in A3.
  replace (written [(ds, UY)]) with (ds ++ unit_name UY) in A3 by (cbn [written map List.concat fst snd]; rewrite app_nil_r; reflexivity).
  change (written [(str "6", UM)]) with (str "6" ++ unit_name UM) in A3.
  rewrite A3, A1. cbn [obind]. rewrite <- A2. unfold civil. rewrite Q2. reflexivity.
Qed.
Lemma months_after_fun : forall y m d k a b, months_after y m d k a -> months_after y m d k b -> a = b.
Proof. intros y' m' d' k a b (y1 & m1 & H1 & E1 & ->) (y2 & m2 & H2 & E2 & ->). assert (y1 = y2 /\ m1 = m2) as [-> ->] by lia. reflexivity. Qed.
Lemma exists_months : forall k, exists n', months_after y m d k n'.
Proof using.
  intro k. set (q := 12 * y + (m - 1) + k). exists (day_number (q / 12) (q mod 12 + 1) (Z.min d (month_days (q / 12) (q mod 12 + 1)))), (q / 12), (q mod 12 + 1).
  split; [|split; [|reflexivity]]; subst q; Z.to_euclidean_division_equations; lia.
Qed.
(** the dates that stand for [ts], [ws] being the walks *)
Definition dated (ts : list (list ascii)) (ws : list (list step)) (l : list Z) : Prop :=
  Forall2 (fun p n' => add_period E0 p = Ret (Odt n' ns off)) ts l /\ Forall2 (fun w n' => walked w n0 n') ws l.
Lemma dated_cons : forall p w n' ts ws l, add_period E0 p = Ret (Odt n' ns off) -> walked w n0 n' -> dated ts ws l -> dated (p :: ts) (w :: ws) (n' :: l).
Proof. intros p w n' ts ws l A W [D1 D2]. split; constructor; assumption. Qed.
(** each at least a day after the one before *)
Fixpoint chain (n : Z) (l : list Z) : Prop := match l with [] => True | n' :: l' => n + 1 <= n' /\ chain n' l' end.
Lemma walk_days : forall k, walked [Days k] n0 (n0 + k).
Proof using. intro k. exists (n0 + k). split; reflexivity. Qed.
Lemma walk_months : forall k n', months_after y m d k n' -> walked [Months k] n0 n'.
Proof using C. intros k n' H. destruct C as (_ & V & _). exists n'. split; [|reflexivity]. exists y, m, d. auto. Qed.
Lemma walk_half : forall k n1 n2 y1 m1 d1, months_after y m d k n1 -> valid_date y1 m1 d1 -> n1 = day_number y1 m1 d1 -> months_after y1 m1 d1 6 n2 ->
  walked [Months k; Months 6] n0 n2.
Proof using C.
  intros k n1 n2 y1 m1 d1 H V E H2. destruct C as (_ & V0 & _). exists n1. split; [exists y, m, d; auto|]. exists n2. split; [|reflexivity]. exists y1, m1, d1. auto.
Qed.
Ltac num := split; [discriminate|]; repeat (apply Forall_cons; [cbn; lia|]); apply Forall_nil.
Lemma grid_dates : exists l, dated tenors grid (n0 :: l) /\ chain n0 l /\ exists l', l = l' ++ [day_number (y + 100) m (Z.min d (month_days (y + 100) m))].
Proof using C R.
  pose proof C as (_ & V & _).
  destruct (tenor_months (str "1") UM 1 1 ltac:(num) ltac:(reflexivity) eq_refl eq_refl ltac:(lia)) as (n1 & A1 & M1).
  destruct (tenor_months (str "2") UM 1 2 ltac:(num) ltac:(reflexivity) eq_refl eq_refl ltac:(lia)) as (n2 & A2 & M2).
  destruct (tenor_months (str "3") UM 1 3 ltac:(num) ltac:(reflexivity) eq_refl eq_refl ltac:(lia)) as (n3 & A3 & M3).
  destruct (tenor_months (str "4") UM 1 4 ltac:(num) ltac:(reflexivity) eq_refl eq_refl ltac:(lia)) as (n4 & A4 & M4).
  destruct (tenor_months (str "5") UM 1 5 ltac:(num) ltac:(reflexivity) eq_refl eq_refl ltac:(lia)) as (n5 & A5 & M5).
  destruct (tenor_months (str "6") UM 1 6 ltac:(num) ltac:(reflexivity) eq_refl eq_refl ltac:(lia)) as (n6 & A6 & M6).
  destruct (tenor_months (str "9") UM 1 9 ltac:(num) ltac:(reflexivity) eq_refl eq_refl ltac:(lia)) as (n9 & A9 & M9).
  destruct (tenor_months (str "1") UY 12 12 ltac:(num) ltac:(reflexivity) eq_refl eq_refl ltac:(lia)) as (n12 & A12 & M12).
  destruct (tenor_half (str "1") 12 ltac:(num) ltac:(reflexivity) eq_refl ltac:(lia)) as (na1 & nh1 & MA1 & AH1 & yy1 & mm1 & dd1 & VV1 & EE1 & MH1).
  destruct (exists_months 18) as (ns1 & MS1).
  destruct (tenor_months (str "2") UY 12 24 ltac:(num) ltac:(reflexivity) eq_refl eq_refl ltac:(lia)) as (n24 & A24 & M24).
  destruct (tenor_half (str "2") 24 ltac:(num) ltac:(reflexivity) eq_refl ltac:(lia)) as (na2 & nh2 & MA2 & AH2 & yy2 & mm2 & dd2 & VV2 & EE2 & MH2).
  destruct (exists_months 30) as (ns2 & MS2).
  destruct (tenor_months (str "3") UY 12 36 ltac:(num) ltac:(reflexivity) eq_refl eq_refl ltac:(lia)) as (n36 & A36 & M36).
  destruct (tenor_months (str "4") UY 12 48 ltac:(num) ltac:(reflexivity) eq_refl eq_refl ltac:(lia)) as (n48 & A48 & M48).
  destruct (tenor_months (str "5") UY 12 60 ltac:(num) ltac:(reflexivity) eq_refl eq_refl ltac:(lia)) as (n60 & A60 & M60).
  destruct (tenor_months (str "6") UY 12 72 ltac:(num) ltac:(reflexivity) eq_refl eq_refl ltac:(lia)) as (n72 & A72 & M72).
  destruct (tenor_months (str "7") UY 12 84 ltac:(num) ltac:(reflexivity) eq_refl eq_refl ltac:(lia)) as (n84 & A84 & M84).
  destruct (tenor_months (str "8") UY 12 96 ltac:(num) ltac:(reflexivity) eq_refl eq_refl ltac:(lia)) as (n96 & A96 & M96).
  destruct (tenor_months (str "9") UY 12 108 ltac:(num) ltac:(reflexivity) eq_refl eq_refl ltac:(lia)) as (n108 & A108 & M108).
  destruct (tenor_months (str "10") UY 12 120 ltac:(num) ltac:(reflexivity) eq_refl eq_refl ltac:(lia)) as (n120 & A120 & M120).
  destruct (tenor_months (str "12") UY 12 144 ltac:(num) ltac:(reflexivity) eq_refl eq_refl ltac:(lia)) as (n144 & A144 & M144).
  destruct (tenor_months (str "15") UY 12 180 ltac:(num) ltac:(reflexivity) eq_refl eq_refl ltac:(lia)) as (n180 & A180 & M180).
  destruct (tenor_months (str "20") UY 12 240 ltac:(num) ltac:(reflexivity) eq_refl eq_refl ltac:(lia)) as (n240 & A240 & M240).
  destruct (tenor_months (str "30") UY 12 360 ltac:(num) ltac:(reflexivity) eq_refl eq_refl ltac:(lia)) as (n360 & A360 & M360).
  destruct (tenor_months (str "50") UY 12 600 ltac:(num) ltac:(reflexivity) eq_refl eq_refl ltac:(lia)) as (n600 & A600 & M600).
  destruct (tenor_months (str "100") UY 12 1200 ltac:(num) ltac:(reflexivity) eq_refl eq_refl ltac:(lia)) as (n1200 & A1200 & M1200).
  exists ([n0 + 1; n0 + 7; n0 + 14] ++ [n1; n2; n3; n4; n5; n6; n9; n12; nh1; n24; nh2; n36; n48; n60; n72; n84; n96; n108; n120; n144; n180; n240; n360; n600; n1200]).
  split; [|split].
  - unfold tenors, grid. cbn [map app].
    apply dated_cons; [pose proof (tenor_days (str "0") UD 1 0 ltac:(num) eq_refl eq_refl eq_refl ltac:(lia)) as T0; rewrite Z.add_0_r in T0; exact T0|exists n0; split; [cbn; lia|reflexivity]|].
    apply dated_cons; [exact (tenor_days (str "1") UD 1 1 ltac:(num) eq_refl eq_refl eq_refl ltac:(lia))|apply walk_days|].
    apply dated_cons; [exact (tenor_days (str "1") UW 7 7 ltac:(num) eq_refl eq_refl eq_refl ltac:(lia))|apply walk_days|].
    apply dated_cons; [exact (tenor_days (str "2") UW 7 14 ltac:(num) eq_refl eq_refl eq_refl ltac:(lia))|apply walk_days|].
    apply dated_cons; [exact A1|exact (walk_months 1 n1 M1)|].
    apply dated_cons; [exact A2|exact (walk_months 2 n2 M2)|].
    apply dated_cons; [exact A3|exact (walk_months 3 n3 M3)|].
    apply dated_cons; [exact A4|exact (walk_months 4 n4 M4)|].
    apply dated_cons; [exact A5|exact (walk_months 5 n5 M5)|].
    apply dated_cons; [exact A6|exact (walk_months 6 n6 M6)|].
    apply dated_cons; [exact A9|exact (walk_months 9 n9 M9)|].
    apply dated_cons; [exact A12|exact (walk_months 12 n12 M12)|].
    apply dated_cons; [exact AH1|exact (walk_half 12 na1 nh1 yy1 mm1 dd1 MA1 VV1 EE1 MH1)|].
    apply dated_cons; [exact A24|exact (walk_months 24 n24 M24)|].
    apply dated_cons; [exact AH2|exact (walk_half 24 na2 nh2 yy2 mm2 dd2 MA2 VV2 EE2 MH2)|].
    apply dated_cons; [exact A36|exact (walk_months 36 n36 M36)|].
    apply dated_cons; [exact A48|exact (walk_months 48 n48 M48)|].
    apply dated_cons; [exact A60|exact (walk_months 60 n60 M60)|].
    apply dated_cons; [exact A72|exact (walk_months 72 n72 M72)|].
    apply dated_cons; [exact A84|exact (walk_months 84 n84 M84)|].
    apply dated_cons; [exact A96|exact (walk_months 96 n96 M96)|].
    apply dated_cons; [exact A108|exact (walk_months 108 n108 M108)|].
    apply dated_cons; [exact A120|exact (walk_months 120 n120 M120)|].
    apply dated_cons; [exact A144|exact (walk_months 144 n144 M144)|].
    apply dated_cons; [exact A180|exact (walk_months 180 n180 M180)|].
    apply dated_cons; [exact A240|exact (walk_months 240 n240 M240)|].
    apply dated_cons; [exact A360|exact (walk_months 360 n360 M360)|].
    apply dated_cons; [exact A600|exact (walk_months 600 n600 M600)|].
    apply dated_cons; [exact A1200|exact (walk_months 1200 n1200 M1200)|].
    split; apply Forall2_nil.
  - cbn [app chain].
    pose proof (later_month y m d 0 1 n0 n1 V ltac:(lia) (months_after_zero y m d V) M1) as L1.
    pose proof (later_month y m d 1 2 _ _ V ltac:(lia) M1 M2) as L2.
    pose proof (later_month y m d 2 3 _ _ V ltac:(lia) M2 M3) as L3.
    pose proof (later_month y m d 3 4 _ _ V ltac:(lia) M3 M4) as L4.
    pose proof (later_month y m d 4 5 _ _ V ltac:(lia) M4 M5) as L5.
    pose proof (later_month y m d 5 6 _ _ V ltac:(lia) M5 M6) as L6.
    pose proof (later_month y m d 6 9 _ _ V ltac:(lia) M6 M9) as L9.
    pose proof (later_month y m d 9 12 _ _ V ltac:(lia) M9 M12) as L12.
    assert (NE1 : na1 = n12) by exact (months_after_fun y m d 12 _ _ MA1 M12). rewrite NE1 in EE1.
    pose proof (later_month yy1 mm1 dd1 0 6 _ _ VV1 ltac:(lia) (months_after_zero _ _ _ VV1) MH1) as L18. rewrite <- EE1 in L18.
    pose proof (two_leaps y m d 12 6 _ _ _ yy1 mm1 dd1 V M12 VV1 EE1 MH1 MS1) as LL1.
    pose proof (later_month y m d 18 24 _ _ V ltac:(lia) MS1 M24) as LX1.
    assert (NE2 : na2 = n24) by exact (months_after_fun y m d 24 _ _ MA2 M24). rewrite NE2 in EE2.
    pose proof (later_month yy2 mm2 dd2 0 6 _ _ VV2 ltac:(lia) (months_after_zero _ _ _ VV2) MH2) as L30. rewrite <- EE2 in L30.
    pose proof (two_leaps y m d 24 6 _ _ _ yy2 mm2 dd2 V M24 VV2 EE2 MH2 MS2) as LL2.
    pose proof (later_month y m d 30 36 _ _ V ltac:(lia) MS2 M36) as LX2.
    pose proof (later_month y m d 36 48 _ _ V ltac:(lia) M36 M48) as L48.
    pose proof (later_month y m d 48 60 _ _ V ltac:(lia) M48 M60) as L60.
    pose proof (later_month y m d 60 72 _ _ V ltac:(lia) M60 M72) as L72.
    pose proof (later_month y m d 72 84 _ _ V ltac:(lia) M72 M84) as L84.
    pose proof (later_month y m d 84 96 _ _ V ltac:(lia) M84 M96) as L96.
    pose proof (later_month y m d 96 108 _ _ V ltac:(lia) M96 M108) as L108.
    pose proof (later_month y m d 108 120 _ _ V ltac:(lia) M108 M120) as L120.
    pose proof (later_month y m d 120 144 _ _ V ltac:(lia) M120 M144) as L144.
    pose proof (later_month y m d 144 180 _ _ V ltac:(lia) M144 M180) as L180.
    pose proof (later_month y m d 180 240 _ _ V ltac:(lia) M180 M240) as L240.
    pose proof (later_month y m d 240 360 _ _ V ltac:(lia) M240 M360) as L360.
    pose proof (later_month y m d 360 600 _ _ V ltac:(lia) M360 M600) as L600.
    pose proof (later_month y m d 600 1200 _ _ V ltac:(lia) M600 M1200) as L1200.
    repeat (split; [lia|]). exact I.
  - exists [n0 + 1; n0 + 7; n0 + 14; n1; n2; n3; n4; n5; n6; n9; n12; nh1; n24; nh2; n36; n48; n60; n72; n84; n96; n108; n120; n144; n180; n240; n360; n600]. cbn [app].
    assert (QX : n1200 = day_number (y + 100) m (Z.min d (month_days (y + 100) m))); [|rewrite QX; reflexivity].
    destruct M1200 as (yx & mx & HX & EX & ->). assert (yx = y + 100 /\ mx = m) as [-> ->] by (destruct V; lia). reflexivity.
Qed.
End Dates.
