(** QCurveProofs.v -- the times of a zero curve's cached factors. *)
From Coq Require Import ZArith List Bool Reals Lia Lra Ascii String.
From Flocq Require Import Core IEEE754.BinarySingleNaN.
From Verif Require Import Base CivilSpec FloatModel FloatFacts KrxModel QDateModel QDateProofs QCalModel QCalSpec QCalRules QCalProps QPeriodModel QPeriodSpec QPeriodProofs QPeriodProps
  QYearModel QYearProofs QYearSpec QYearProps QFindModel QFindSpec QFindProofs QFindProps QInterpModel QInterpSpec QInterpProofs QLinProofs QLinProps QDivModel QCurveModel QCurveSpec QCurveDates.
Import ListNotations.
Open Scope Z_scope.

(** ** Lists that rise *)
Definition rises (ts : list f32) : Prop :=
  Forall finite ts /\ forall i a b, nth_error ts i = Some a -> nth_error ts (i + 1) = Some b -> (value a + / 2048 <= value b)%R.
Lemma rises_far : forall ts, rises ts -> forall k i a b, nth_error ts i = Some a -> nth_error ts (i + 1 + k) = Some b -> (value a + / 2048 <= value b)%R.
Proof.
  intros ts [F RS] k. induction k as [|k IH]; intros i a b Ha Hb.
  - rewrite Nat.add_0_r in Hb. exact (RS i a b Ha Hb).
  - assert (LB : (i + 1 + S k < List.length ts)%nat) by (apply nth_error_Some; congruence).
    destruct (nth_error ts (i + 1 + k)) as [c|] eqn:Hc; [|apply nth_error_None in Hc; lia].
    pose proof (IH i a c Ha Hc). pose proof (RS (i + 1 + k)%nat c b Hc ltac:(replace (i + 1 + k + 1)%nat with (i + 1 + S k)%nat by lia; exact Hb)). lra.
Qed.
Lemma rises_lt : forall ts, rises ts -> forall i j a b, (i < j)%nat -> nth_error ts i = Some a -> nth_error ts j = Some b -> (value a + / 2048 <= value b)%R.
Proof.
  intros ts RS i j a b L Ha Hb. apply (rises_far ts RS (j - i - 1) i); [exact Ha|]. replace (i + 1 + (j - i - 1))%nat with j by lia. exact Hb.
Qed.
Lemma rises_sorted : forall ts, rises ts -> strictly_sorted fcmp ts.
Proof.
  intros ts RS i j a b L Ha Hb. pose proof (rises_lt ts RS i j a b L Ha Hb) as H. destruct RS as [F _]. rewrite List.Forall_forall in F.
  apply flt_finite; [exact (F a (nth_error_In _ _ Ha))|exact (F b (nth_error_In _ _ Hb))|]. unfold value in H. lra.
Qed.

(** ** The times *)
Lemma map_outcome_map : forall A B (f : A -> outcome B) (Q : A -> B -> Prop) l, (forall x, In x l -> exists y, f x = Ret y /\ Q x y) -> exists ys, map_outcome f l = Ret ys /\ Forall2 Q l ys.
Proof.
  intros A B f Q. induction l as [|x l IH]; intro H.
  - exists []. split; [reflexivity|constructor].
  - destruct (H x (or_introl eq_refl)) as (y & E & q). destruct IH as (ys & E' & q'); [intros; apply H; right; assumption|].
    exists (y :: ys). cbn [map_outcome]. rewrite E. cbn [obind]. rewrite E'. cbn [obind]. split; [reflexivity|constructor; assumption].
Qed.
Lemma map_outcome_ext : forall A B (f : A -> outcome B) l ys, Forall2 (fun x y => f x = Ret y) l ys -> map_outcome f l = Ret ys.
Proof.
  intros A B f l ys H. induction H as [|x y l ys E _ IH]; [reflexivity|]. cbn [map_outcome]. rewrite E. cbn [obind]. rewrite IH. reflexivity.
Qed.
Lemma forall2_nth : forall A B (Q : A -> B -> Prop) l m, Forall2 Q l m -> forall i a b, nth_error l i = Some a -> nth_error m i = Some b -> Q a b.
Proof.
  intros A B Q l m H. induction H as [|x y l m q _ IH]; intros [|i] a b Ha Hb; cbn [nth_error] in *; try discriminate.
  - assert (x = a) by congruence. assert (y = b) by congruence. subst. exact q.
  - exact (IH i a b Ha Hb).
Qed.
Lemma forall2_len : forall A B (Q : A -> B -> Prop) l m, Forall2 Q l m -> List.length l = List.length m.
Proof. intros A B Q l m H. induction H; cbn; congruence. Qed.

Lemma leap_or : forall y, days_in_year y = gof_Z 366 \/ days_in_year y = gof_Z 365.
Proof. intro y. unfold days_in_year. destruct (is_leap_year y); auto. Qed.
Section Times.
Context (y m d ns off : Z) (C : civil_ok y m d ns) (R : y + 100 <= 9999) (O : -93599 <= off <= 93599).
Notation E0 := (civil y m d ns off).
Notation n0 := (day_number y m d).
Notation at_day n := (Odt n ns off).
Notation n9 := (day_number (y + 100) m (Z.min d (month_days (y + 100) m))).

Lemma n9_year : in_the_year (y + 100) n9 /\ n0 + 36500 <= n9 /\ n9 <= date_max.
Proof using C R.
  pose proof C as (Y & [Vm Vd] & W). pose proof (month_days_range (y + 100) m) as RD.
  assert (V9 : valid_date (y + 100) m (Z.min d (month_days (y + 100) m))) by (split; lia).
  assert (A : date_year n9 = y + 100) by apply (proj1 (date_is _ _ _ _ V9) eq_refl).
  assert (I : in_the_year (y + 100) n9) by (apply year_of_day; exact A). split; [exact I|].
  assert (S1 : year_start y + 36524 <= year_start (y + 100)) by (clear; unfold year_start, leaps_to; Z.to_euclidean_division_equations; lia).
  split.
  - unfold day_number. assert (M : month_start y m - 1 <= month_start (y + 100) m).
    { clear. unfold month_start. destruct ((2 <? m) && leapb y), ((2 <? m) && leapb (y + 100)); lia. }
    pose proof (month_days_range y m). lia.
  - pose proof (date_year_spec n9) as DS. rewrite A in DS.
    assert (year_start (y + 101) <= year_start 10000).
    { destruct (Z.eq_dec (y + 101) 10000) as [->|N]; [lia|]. pose proof (year_start_mono (y + 101) 10000 ltac:(lia)). pose proof (year_days_pos (y + 101)). lia. }
    replace (y + 101) with (y + 100 + 1) in * by lia. rewrite year_next in *. change (year_start 10000) with 2932897 in *. unfold date_max. lia.
Qed.
Lemma eval_ok : odt_ok E0 /\ in_the_year y (od_day E0).
Proof using C R O.
  pose proof C as (Y & V & W). pose proof (n0_range y m d ns C R) as B. unfold odt_ok, civil. cbn [od_day od_ns od_off]. split.
  - split; [|split; [exact W|exact O]]. unfold in_range. apply andb_true_iff. rewrite !Z.leb_le. lia.
  - apply year_of_day. apply (proj1 (date_is _ y m d V) eq_refl).
Qed.
Lemma at_ok : forall n, n0 <= n <= n9 -> odt_ok (at_day n) /\ exists y', in_the_year y' n /\ y <= y' <= y + 100.
Proof using C R O.
  intros n H. pose proof n9_year as (I & _ & M). pose proof C as (Y & V & W). pose proof (n0_range y m d ns C R) as B. split.
  - split; [|split; [exact W|exact O]]. unfold in_range. cbn [od_day]. apply andb_true_iff. rewrite !Z.leb_le. lia.
  - exists (date_year n). split; [apply year_of_day; reflexivity|]. apply year_of_day in I. 
    assert (Q : date_year n0 = y) by apply (proj1 (date_is _ y m d V) eq_refl).
    pose proof (date_year_mono n0 n ltac:(lia)) as D1. pose proof (date_year_mono n n9 ltac:(lia)) as D2. rewrite Q in D1. rewrite I in D2. lia.
Qed.
Lemma two_times : forall n1 n2, n0 <= n1 -> n1 + 1 <= n2 -> n2 <= n9 ->
  exists x1 x2, get_time_difference E0 (at_day n1) = Ret x1 /\ get_time_difference E0 (at_day n2) = Ret x2 /\ finite x1 /\ finite x2 /\ (value x1 + / 2048 <= value x2)%R.
Proof using C R O.
  intros n1 n2 L1 L2 L3. destruct eval_ok as [HE YE]. destruct (at_ok n1 ltac:(lia)) as (H1 & y1 & I1 & B1). destruct (at_ok n2 ltac:(lia)) as (H2 & y2 & I2 & B2).
  destruct (apart E0 (at_day n1) (at_day n2) y y1 y2) as (x1 & x2 & v1 & v2 & X1 & X2 & F1 & F2 & G); try assumption; try reflexivity; try lia.
  { unfold instant. cbn [od_day od_ns od_off]. unfold day_ns. lia. }
  exists x1, x2. split; [exact X1|]. split; [exact X2|]. destruct F1 as [F1 <-], F2 as [F2 <-]. auto.
Qed.
Lemma time_zero : exists x, get_time_difference E0 E0 = Ret x /\ finite x /\ value x = 0%R.
Proof using.
  unfold get_time_difference, over_years. replace (date_year (od_day E0) - date_year (od_day E0) + 1) with 1 by lia. change (Z.to_nat 1) with 1%nat. cbn [year_loop].
  unfold time_part. rewrite !Z.eqb_refl. cbn [obind]. replace (instant E0 - instant E0) with 0 by lia.
  destruct (leap_or (date_year (od_day E0))) as [-> | ->]; (eexists; split; [reflexivity|]; split; vm_compute; reflexivity).
Qed.

Lemma chain_bounds : forall l n l' z, chain n l -> l = l' ++ [z] -> Forall (fun k => n + 1 <= k <= z) l.
Proof using.
  clear. induction l as [|a l IH]; intros n l' z CH E; [constructor|]. destruct CH as [H1 H2]. destruct l' as [|b l'].
  - cbn [app] in E. injection E as -> ->. constructor; [lia|constructor].
  - cbn [app] in E. injection E as <- E. pose proof (IH a l' z H2 E) as F. assert (I : In z l) by (rewrite E; apply in_or_app; right; left; reflexivity).
    rewrite List.Forall_forall in F. pose proof (F z I). constructor; [lia|]. apply List.Forall_forall. intros k K. pose proof (F k K). lia.
Qed.
Lemma chain_next : forall l n i a b, chain n l -> nth_error (n :: l) i = Some a -> nth_error (n :: l) (i + 1) = Some b -> a + 1 <= b.
Proof using.
  clear. induction l as [|c l IH]; intros n i a b CH Ha Hb.
  - destruct i as [|[|i]]; cbn in Hb; discriminate Hb.
  - destruct CH as [H1 H2]. destruct i as [|i].
    + cbn in Ha, Hb. congruence.
    + exact (IH c i a b H2 Ha Hb).
Qed.
Definition moment (w : list step) (t : f32) : Prop := exists n', walked w n0 n' /\ get_time_difference E0 (at_day n') = Ret t.
Lemma grid_times : exists ts t9, curve_times E0 = Ret ts /\ Forall2 moment grid ts /\ rises ts /\
  (exists t0, nth_error ts 0 = Some t0 /\ value t0 = 0%R) /\ nth_error ts 28 = Some t9 /\ List.length ts = 29%nat /\ (99 <= value t9 <= 101)%R.
Proof using C R O.
  destruct (grid_dates y m d ns off C R) as (l & [D1 D2] & CH & l' & EL).
  pose proof (chain_bounds l n0 l' n9 CH EL) as B. pose proof n9_year as (I9 & G9 & M9).
  assert (BB : forall n, In n (n0 :: l) -> n0 <= n <= n9).
  { intros n [<-|I]; [lia|]. rewrite List.Forall_forall in B. pose proof (B n I). lia. }
  destruct (map_outcome_map Z f32 (fun n => get_time_difference E0 (at_day n)) (fun n t => get_time_difference E0 (at_day n) = Ret t /\ finite t) (n0 :: l)) as (ts & ET & FT).
  { intros n I. pose proof (BB n I) as Bn. destruct (Z.eq_dec n n9) as [->|N].
    - destruct (two_times n0 n9 ltac:(lia) ltac:(lia) ltac:(lia)) as (_ & x & _ & X & _ & F & _). exists x. auto.
    - destruct (two_times n n9 ltac:(lia) ltac:(lia) ltac:(lia)) as (x & _ & X & _ & F & _). exists x. auto. }
  assert (LG : List.length (n0 :: l) = 29%nat) by (rewrite <- (forall2_len _ _ _ _ _ D2); reflexivity).
  assert (LT : List.length ts = 29%nat) by (rewrite <- (forall2_len _ _ _ _ _ FT); exact LG).
  assert (N9 : nth_error (n0 :: l) 28 = Some n9).
  { rewrite EL in LG |- *. cbn [List.length] in LG. rewrite app_length in LG. cbn [List.length] in LG.
    change (nth_error (l' ++ [n9]) 27 = Some n9). rewrite nth_error_app2 by lia. replace (27 - List.length l')%nat with 0%nat by lia. reflexivity. }
  destruct (nth_error ts 28) as [t9|] eqn:E9; [|apply nth_error_None in E9; lia].
  destruct (nth_error ts 0) as [t0|] eqn:E0'; [|apply nth_error_None in E0'; lia].
  exists ts, t9. split; [|split; [|split; [|split; [|split; [exact E9|split; [exact LT|]]]]]].
  - unfold curve_times. apply map_outcome_ext. clear - D1 FT. revert D1 FT. generalize tenors. generalize (n0 :: l). intros ks ps D1. revert ts.
    induction D1 as [|p n ps ks A _ IH]; intros ts FT.
    + inversion FT. constructor.
    + inversion FT as [|? t ? ts' [Q _] FT']. subst. constructor; [rewrite A; cbn [obind]; exact Q|]. apply IH. exact FT'.
  - clear - D2 FT. revert D2 FT. generalize grid. generalize (n0 :: l). intros ks ws D2. revert ts.
    induction D2 as [|w n ws ks A _ IH]; intros ts FT.
    + inversion FT. constructor.
    + inversion FT as [|? t ? ts' [Q _] FT']. subst. constructor; [exists n; auto|]. apply IH. exact FT'.
  - split.
    + clear - FT. induction FT as [|? ? ? ? [_ Q] _ IH]; constructor; assumption.
    + intros i a b Ha Hb. assert (i + 1 < 29)%nat by (rewrite <- LT; apply nth_error_Some; congruence).
      destruct (nth_error (n0 :: l) i) as [na|] eqn:Ea; [|apply nth_error_None in Ea; lia].
      destruct (nth_error (n0 :: l) (i + 1)) as [nb|] eqn:Eb; [|apply nth_error_None in Eb; lia].
      pose proof (chain_next l n0 i na nb CH Ea Eb) as NB.
      destruct (two_times na nb) as (x1 & x2 & X1 & X2 & _ & _ & G); [apply BB; eapply nth_error_In; exact Ea|exact NB|apply BB; eapply nth_error_In; exact Eb|].
      destruct (forall2_nth _ _ _ _ _ FT i na a Ea Ha) as [Qa _]. destruct (forall2_nth _ _ _ _ _ FT (i + 1) nb b Eb Hb) as [Qb _].
      rewrite X1 in Qa. rewrite X2 in Qb. injection Qa as ->. injection Qb as ->. exact G.
  - exists t0. split; [exact E0'|]. destruct (forall2_nth _ _ _ _ _ FT 0 n0 t0 eq_refl E0') as [Q _].
    destruct time_zero as (x & X & _ & V). change (at_day n0) with E0 in Q. rewrite X in Q. injection Q as ->. exact V.
  - destruct (forall2_nth _ _ _ _ _ FT 28 n9 t9 N9 E9) as [Q Ft]. destruct eval_ok as [HE YE]. destruct (at_ok n9 ltac:(lia)) as (H9 & _).
    destruct (time_pos E0 (at_day n9) y (y + 100) HE H9 YE I9 eq_refl ltac:(lia)) as (x & X & v & [F V] & E). rewrite Q in X. injection X as <-. unfold value. rewrite V.
    pose proof (clock_in_year E0 y HE YE) as K0. pose proof (clock_in_year (at_day n9) (y + 100) H9 I9) as K9.
    assert (CK : clock E0 + 36500 * day_ns <= clock (at_day n9)) by (unfold clock, civil; cbn [od_day od_ns]; unfold day_ns; lia).
    pose proof (pos_gap y (y + 100) (clock E0) (clock (at_day n9)) ltac:(lia) ltac:(unfold day_ns in CK; lia) K0 K9) as PG.
    assert (G1 : (99.7 <= IZR (clock (at_day n9) - clock E0) / IZR (day_ns * 366))%R).
    { apply Rle_trans with (IZR (36500 * day_ns) / IZR (day_ns * 366))%R.
      - rewrite !mult_IZR. replace (36500 * IZR day_ns / (IZR day_ns * 366))%R with (36500 / 366)%R; [lra|]. field. apply not_0_IZR. discriminate.
      - unfold Rdiv. apply Rmult_le_compat_r; [left; apply Rinv_0_lt_compat; apply IZR_lt; reflexivity|apply IZR_le; lia]. }
    assert (G2 : (pos (y + 100) (clock (at_day n9)) - pos y (clock E0) <= 100.01)%R).
    { unfold pos. rewrite plus_IZR.
      assert (DD : clock (at_day n9) - day_ns * year_start (y + 100) <= clock E0 - day_ns * year_start y + day_ns).
      { unfold clock, civil. cbn [od_day od_ns]. unfold day_number.
        assert (MS : month_start (y + 100) m <= month_start y m + 1) by (clear; unfold month_start; destruct ((2 <? m) && leapb y), ((2 <? m) && leapb (y + 100)); lia).
        pose proof C as (_ & [Vm Vd] & _). pose proof (month_days_range (y + 100) m). unfold day_ns. nia. }
      set (a := clock E0 - day_ns * year_start y) in *. set (b := clock (at_day n9) - day_ns * year_start (y + 100)) in *.
      pose proof (year_days_pos y) as D1'. pose proof (year_days_pos (y + 100)) as D2'.
      assert (A0 : 0 <= a <= day_ns * 366) by (subst a; pose proof (year_next y); nia). assert (B0 : 0 <= b) by (subst b; lia).
      pose proof (part_bound a (year_days y) ltac:(lia) D1') as P1.
      assert (P2 : (IZR b / IZR (day_ns * year_days (y + 100)) <= IZR b / IZR (day_ns * 365))%R).
      { unfold Rdiv. apply Rmult_le_compat_l; [apply IZR_le; lia|]. apply Rinv_le; [apply IZR_lt; reflexivity|apply IZR_le; unfold day_ns; lia]. }
      assert (P3 : (IZR b / IZR (day_ns * 365) - IZR a / IZR (day_ns * 366) <= 0.01)%R).
      { apply Rle_trans with (IZR (a + day_ns) / IZR (day_ns * 365) - IZR a / IZR (day_ns * 366))%R.
        - apply Rplus_le_compat_r. unfold Rdiv. apply Rmult_le_compat_r; [left; apply Rinv_0_lt_compat; apply IZR_lt; reflexivity|apply IZR_le; lia].
        - assert (AR : (0 <= IZR a <= IZR day_ns * 366)%R) by (rewrite <- mult_IZR; split; apply IZR_le; lia).
          rewrite plus_IZR, !mult_IZR. unfold day_ns in *. lra. }
      lra. }
    pose proof (inv_len y). pose proof (inv_len (y + 100)). replace (y + 100 - y + 1) with 101 in E by lia. apply Rabs_le_inv in E. lra.
Qed.
End Times.
