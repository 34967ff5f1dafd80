(** QCalProofs.v -- business days are never far apart; the adjustment loops. *)
From Coq Require Import ZArith List Bool Lia.
From Verif Require Import Base CivilSpec QDateModel QDateProofs QCalTables QCalModel.
Import ListNotations.
Open Scope Z_scope.

Lemma unpack_fields : forall n, unpack n =
  Fields n (date_year n) (date_month n) (date_day n) (date_weekday n) (date_ordinal n).
Proof. reflexivity. Qed.

(** ** All days of a year, cheaply *)
Definition month_list (leap : bool) : list (Z * Z) :=
  flat_map (fun ml => map (fun d => (fst ml, Z.of_nat d)) (seq 1 (snd ml)))
    [(1, 31%nat); (2, if leap then 29%nat else 28%nat); (3, 31%nat); (4, 30%nat); (5, 31%nat); (6, 30%nat);
     (7, 31%nat); (8, 31%nat); (9, 30%nat); (10, 31%nat); (11, 30%nat); (12, 31%nat)].

Fixpoint year_days_from (l : list (Z * Z)) (n y w o : Z) : list fields :=
  match l with
  | [] => []
  | (m, d) :: l' => Fields n y m d w o :: year_days_from l' (n + 1) y (if w =? 6 then 0 else w + 1) (o + 1)
  end.

Definition year_fields (y : Z) : list fields :=
  year_days_from (month_list (leapb y)) (year_start y) y (date_weekday (year_start y)) 1.

Lemma weekday_next : forall n, date_weekday (n + 1) = if date_weekday n =? 6 then 0 else date_weekday n + 1.
Proof.
  intro n. unfold date_weekday. destruct (Z.eqb_spec ((n + 3) mod 7) 6);
    Z.to_euclidean_division_equations; lia.
Qed.

Fixpoint check_months (l : list (Z * Z)) (leap : bool) (o : Z) : bool :=
  match l with
  | [] => true
  | (m, d) :: l' =>
      (1 <=? m) && (m <=? 12) && (1 <=? d) && (d <=? month_days (if leap then 4 else 1) m) &&
      (month_start (if leap then 4 else 1) m + d =? o) && check_months l' leap (o + 1)
  end.

Lemma leap_only : forall y m, month_days y m = month_days (if leapb y then 4 else 1) m /\
  month_start y m = month_start (if leapb y then 4 else 1) m.
Proof.
  intros y m. unfold month_days, month_start. destruct (leapb y); split; reflexivity.
Qed.

Fixpoint upto (k : nat) (n : Z) : list Z := match k with O => [] | S k' => n :: upto k' (n + 1) end.

Lemma year_days_from_unpack : forall l y o n, n = year_start y + o - 1 ->
  check_months l (leapb y) o = true ->
  year_days_from l n y (date_weekday n) o = map unpack (upto (length l) n).
Proof.
  induction l as [|[m d] l IH]; intros y o n E H; [reflexivity|].
  cbn [check_months] in H. rewrite !andb_true_iff, !Z.leb_le, Z.eqb_eq in H.
  destruct H as [[[[[H1 H2] H3] H4] H5] H6].
  cbn [year_days_from length upto map]. rewrite <- weekday_next, IH with (o := o + 1); [|lia|exact H6].
  destruct (leap_only y m) as [L1 L2]. rewrite <- L1 in H4. rewrite <- L2 in H5.
  assert (V : valid_date y m d) by (split; lia).
  assert (N : n = day_number y m d) by (unfold day_number; lia).
  destruct (fields_of_date y m d V) as (A & B & C). rewrite <- N in *.
  rewrite unpack_fields, A, B, C. unfold date_ordinal. rewrite A. f_equal. f_equal. lia.
Qed.

Lemma month_list_ok : forall b, check_months (month_list b) b 1 = true.
Proof. intros []; vm_compute; reflexivity. Qed.

Lemma year_fields_unpack : forall y, year_fields y = map unpack (upto (Z.to_nat (year_days y)) (year_start y)).
Proof.
  intro y. unfold year_fields. rewrite year_days_from_unpack; [|lia|apply month_list_ok].
  f_equal. f_equal. unfold year_days. destruct (leapb y); vm_compute; reflexivity.
Qed.

(** ** Runs of closed days *)
Fixpoint run_after (K : Z) (l : list bool) (run : Z) : option Z :=
  match l with
  | [] => Some run
  | b :: l' => if b then (if run + 1 <? K then run_after K l' (run + 1) else None) else run_after K l' 0
  end.

Lemma run_after_spec : forall closed K k n run r, 0 <= run < K ->
  run_after K (map closed (upto k n)) run = Some r ->
  0 <= r < K /\
  (forall m, n - run <= m -> m < n + Z.of_nat k - r -> exists x, n <= x /\ m <= x < m + K /\ closed x = false).
Proof.
  intros closed K. induction k as [|k IH]; intros n run r Hr H.
  - cbn in H. injection H as <-. split; [exact Hr|]. intros m A B. lia.
  - cbn [upto map run_after] in H. destruct (closed n) eqn:E.
    + destruct (Z.ltb_spec (run + 1) K); [|discriminate].
      destruct (IH (n + 1) (run + 1) r ltac:(lia) H) as [R F]. split; [exact R|]. intros m A B.
      destruct (F m ltac:(lia) ltac:(lia)) as (x & X1 & X2 & X3). exists x. repeat split; try lia; assumption.
    + destruct (IH (n + 1) 0 r ltac:(lia) H) as [R F]. split; [exact R|]. intros m A B.
      destruct (Z_le_gt_dec m n).
      * exists n. repeat split; try lia; assumption.
      * destruct (F m ltac:(lia) ltac:(lia)) as (x & X1 & X2 & X3). exists x. repeat split; try lia; assumption.
Qed.

Section Gaps.
Variable closed : Z -> bool.
Variable yl : Z -> list bool.
Hypothesis yl_ok : forall y, yl y = map closed (upto (Z.to_nat (year_days y)) (year_start y)).
Variable K : Z.
Hypothesis K_ok : 0 < K < 300.

(** Starting the count lower does not fail and does not end higher. *)
Lemma run_after_le : forall l r r' q, run_after K l r = Some q -> 0 <= r' <= r ->
  exists q', run_after K l r' = Some q' /\ q' <= q.
Proof.
  induction l as [|b l IH]; intros r r' q H L.
  - cbn in *. injection H as <-. exists r'. split; [reflexivity|lia].
  - cbn [run_after] in *. destruct b.
    + destruct (Z.ltb_spec (r + 1) K); [|discriminate]. destruct (Z.ltb_spec (r' + 1) K); [|lia].
      apply (IH (r + 1)); [exact H|lia].
    + exists q. split; [exact H|lia].
Qed.

Lemma run_after_nonneg : forall l r q, run_after K l r = Some q -> 0 <= r -> 0 <= q.
Proof.
  induction l as [|b l IH]; intros r q H L; cbn [run_after] in H.
  - injection H as <-. exact L.
  - destruct b; [destruct (r + 1 <? K); [|discriminate]|]; apply (IH _ _ H); lia.
Qed.

Lemma run_after_all : forall l r q, run_after K l r = Some q -> forall n m k, 0 <= r < K ->
  l = map closed (upto k n) -> n - r <= m -> m < n + Z.of_nat k - q -> exists x, n <= x /\ m <= x < m + K /\ closed x = false.
Proof. intros l r q H n m k Hr -> A B. exact (proj2 (run_after_spec closed K k n r q Hr H) m A B). Qed.

(** Every year, entered with a run of at most [r0] closed days, is left with
    such a run. *)
Variable r0 : Z.
Hypothesis r0_ok : 0 <= r0 < K.
Hypothesis every_year : forall y, exists q, run_after K (yl y) r0 = Some q /\ q <= r0.

Lemma gaps_years : forall k y run m, 0 <= run <= r0 ->
  year_start y - run <= m -> m + K <= year_start (y + Z.of_nat k) ->
  exists x, m <= x < m + K /\ closed x = false.
Proof.
  induction k as [|k IH]; intros y run m Hr A B.
  - rewrite Z.add_0_r in B. lia.
  - destruct (every_year y) as (q & Q1 & Q2).
    destruct (run_after_le _ _ run _ Q1 Hr) as (q' & Q3 & Q4).
    pose proof (run_after_nonneg _ _ _ Q3 ltac:(lia)) as Q5.
    assert (P : 0 <= year_days y) by (unfold year_days; destruct (leapb y); lia).
    pose proof (year_next y) as N.
    destruct (Z_lt_ge_dec m (year_start y + year_days y - q')) as [L|G].
    + destruct (run_after_all _ _ _ Q3 (year_start y) m (Z.to_nat (year_days y)) ltac:(lia) (yl_ok y) A) as (x & _ & X2 & X3).
      * rewrite Z2Nat.id by lia. exact L.
      * exists x. auto.
    + apply (IH (y + 1) q' m); [lia|lia|]. replace (y + 1 + Z.of_nat k) with (y + Z.of_nat (S k)) by lia. exact B.
Qed.

(** Among any [K] consecutive days one is open, for all time. *)
Theorem gaps_below : forall m, exists x, m <= x < m + K /\ closed x = false.
Proof.
  intro m. pose proof (date_year_spec m) as [A B].
  apply (gaps_years 2 (date_year m) 0 m ltac:(lia)); [lia|].
  replace (date_year m + Z.of_nat 2) with (date_year m + 1 + 1) by lia. rewrite year_next.
  unfold year_days. destruct (leapb (date_year m + 1)); lia.
Qed.
End Gaps.

(** ** The base rules of the calendars *)
Definition base_closed (c : calendar) (f : fields) : bool := if weekend f then true else is_base_holiday c f.

Definition kinds : list calendar :=
  [NullCalendar; new_south_korea KrKrx; new_south_korea KrSettlement; new_united_states UsSettlement;
   new_united_states UsNyse; new_united_states UsGovernmentBond; new_united_states UsFederalReserve;
   new_united_states UsSofr].

Definition kind (c : calendar) : calendar :=
  match c with NullCalendar => NullCalendar | SouthKorea t _ _ => new_south_korea t | UnitedStates t _ _ => new_united_states t end.

Lemma kind_in : forall c, In (kind c) kinds.
Proof. intros [|[]|[]]; cbn; tauto. Qed.
Lemma kind_closed : forall c f, base_closed c f = base_closed (kind c) f.
Proof. intros [|[]|[]] f; reflexivity. Qed.

(** Outside 1901..2199 the rules do not depend on the year. *)
Lemma rules_late : forall c n y m d w o y', y >= 2200 -> y' >= 2200 -> forall n',
  base_closed c (Fields n y m d w o) = base_closed c (Fields n' y' m d w o).
Proof.
  intros c n y m d w o y' H H' n'. unfold base_closed. change (weekend (Fields n y m d w o)) with (weekend (Fields n' y' m d w o)). destruct (weekend _); [reflexivity|].
  destruct c as [|[] a r|[] a r]; [reflexivity| | | | | | |];
    unfold is_base_holiday, kr_is_holiday, us_is_holiday, is_lunar_new_year, is_buddha_birthday, is_chuseok,
      is_last_business_day_of_year, is_temporary_holiday, date_in, goverment_bond_holiday, is_good_friday,
      is_washington_birthday, is_memorial_day, is_labor_day, is_columbus_day, is_veterans_day_no_saturday,
      is_juneteenth, is_labour_day, within; cbn [f_year f_month f_day f_weekday f_ordinal f_date existsb];
    repeat match goal with
    | |- context [?a <=? y] => replace (a <=? y) with true by (symmetry; apply Z.leb_le; lia)
    | |- context [?a <=? y'] => replace (a <=? y') with true by (symmetry; apply Z.leb_le; lia)
    | |- context [y <=? ?a] => replace (y <=? a) with false by (symmetry; apply Z.leb_gt; lia)
    | |- context [y' <=? ?a] => replace (y' <=? a) with false by (symmetry; apply Z.leb_gt; lia)
    | |- context [?a <? y] => replace (a <? y) with true by (symmetry; apply Z.ltb_lt; lia)
    | |- context [?a <? y'] => replace (a <? y') with true by (symmetry; apply Z.ltb_lt; lia)
    | |- context [y <? ?a] => replace (y <? a) with false by (symmetry; apply Z.ltb_ge; lia)
    | |- context [y' <? ?a] => replace (y' <? a) with false by (symmetry; apply Z.ltb_ge; lia)
    | |- context [y =? ?a] => replace (y =? a) with false by (symmetry; apply Z.eqb_neq; lia)
    | |- context [y' =? ?a] => replace (y' =? a) with false by (symmetry; apply Z.eqb_neq; lia)
    | |- context [?a =? y] => replace (a =? y) with false by (symmetry; apply Z.eqb_neq; lia)
    | |- context [?a =? y'] => replace (a =? y') with false by (symmetry; apply Z.eqb_neq; lia)
    end; cbn [andb orb negb]; reflexivity.
Qed.

Lemma rules_early : forall c n y m d w o y', y <= 1900 -> y' <= 1900 -> forall n',
  base_closed c (Fields n y m d w o) = base_closed c (Fields n' y' m d w o).
Proof.
  intros c n y m d w o y' H H' n'. unfold base_closed. change (weekend (Fields n y m d w o)) with (weekend (Fields n' y' m d w o)). destruct (weekend _); [reflexivity|].
  destruct c as [|[] a r|[] a r]; [reflexivity| | | | | | |];
    unfold is_base_holiday, kr_is_holiday, us_is_holiday, is_lunar_new_year, is_buddha_birthday, is_chuseok,
      is_last_business_day_of_year, is_temporary_holiday, date_in, goverment_bond_holiday, is_good_friday,
      is_washington_birthday, is_memorial_day, is_labor_day, is_columbus_day, is_veterans_day_no_saturday,
      is_juneteenth, is_labour_day, within; cbn [f_year f_month f_day f_weekday f_ordinal f_date existsb];
    repeat match goal with
    | |- context [?a <=? y] => replace (a <=? y) with false by (symmetry; apply Z.leb_gt; lia)
    | |- context [?a <=? y'] => replace (a <=? y') with false by (symmetry; apply Z.leb_gt; lia)
    | |- context [y <=? ?a] => replace (y <=? a) with true by (symmetry; apply Z.leb_le; lia)
    | |- context [y' <=? ?a] => replace (y' <=? a) with true by (symmetry; apply Z.leb_le; lia)
    | |- context [?a <? y] => replace (a <? y) with false by (symmetry; apply Z.ltb_ge; lia)
    | |- context [?a <? y'] => replace (a <? y') with false by (symmetry; apply Z.ltb_ge; lia)
    | |- context [y <? ?a] => replace (y <? a) with true by (symmetry; apply Z.ltb_lt; lia)
    | |- context [y' <? ?a] => replace (y' <? a) with true by (symmetry; apply Z.ltb_lt; lia)
    | |- context [y =? ?a] => replace (y =? a) with false by (symmetry; apply Z.eqb_neq; lia)
    | |- context [y' =? ?a] => replace (y' =? a) with false by (symmetry; apply Z.eqb_neq; lia)
    | |- context [?a =? y] => replace (a =? y) with false by (symmetry; apply Z.eqb_neq; lia)
    | |- context [?a =? y'] => replace (a =? y') with false by (symmetry; apply Z.eqb_neq; lia)
    end; cbn [andb orb negb]; reflexivity.
Qed.
