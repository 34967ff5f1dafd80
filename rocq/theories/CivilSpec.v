(** CivilSpec.v -- the proleptic Gregorian calendar, stated without reference
    to any code: leap years, month lengths, and the number of days from
    1970-01-01 to a date by the usual closed formula. *)
From Coq Require Import ZArith List Bool Lia.
Import ListNotations.
Open Scope Z_scope.

Definition leap (y : Z) : Prop := (y mod 4 = 0 /\ y mod 100 <> 0) \/ y mod 400 = 0.
Definition leapb (y : Z) : bool :=
  ((y mod 4 =? 0) && negb (y mod 100 =? 0)) || (y mod 400 =? 0).

Lemma leapb_leap : forall y, leapb y = true <-> leap y.
Proof.
  intro y. unfold leapb, leap.
  rewrite orb_true_iff, andb_true_iff, negb_true_iff, !Z.eqb_eq, Z.eqb_neq. tauto.
Qed.

(** Thirty days hath September... *)
Definition month_days (y m : Z) : Z :=
  if m =? 2 then (if leapb y then 29 else 28)
  else if (m =? 4) || (m =? 6) || (m =? 9) || (m =? 11) then 30 else 31.

Definition valid_date (y m d : Z) : Prop := 1 <= m <= 12 /\ 1 <= d <= month_days y m.

(** Leap years among the years 1..y. *)
Definition leaps_to (y : Z) : Z := y / 4 - y / 100 + y / 400.

(** Days from 1970-01-01 to January 1st of year [y]. *)
Definition year_start (y : Z) : Z := 365 * (y - 1970) + (leaps_to (y - 1) - leaps_to 1969).

(** Days before month [m] in year [y]. *)
Definition month_start (y m : Z) : Z :=
  nth (Z.to_nat m) [0; 0; 31; 59; 90; 120; 151; 181; 212; 243; 273; 304; 334] 0 +
  (if (2 <? m) && leapb y then 1 else 0).

(** The day number of a date: 1970-01-01 is day 0. *)
Definition day_number (y m d : Z) : Z := year_start y + month_start y m + (d - 1).

Definition year_days (y : Z) : Z := if leapb y then 366 else 365.

Example epoch : day_number 1970 1 1 = 0. Proof. reflexivity. Qed.
Example day_2024 : day_number 2024 2 29 = 19782. Proof. reflexivity. Qed.
Example day_2000 : day_number 2000 3 1 = 11017. Proof. reflexivity. Qed.

Lemma year_next : forall y, year_start (y + 1) = year_start y + year_days y.
Proof.
  intro y. unfold year_start, year_days, leaps_to, leapb.
  destruct (Z.eqb_spec (y mod 4) 0); destruct (Z.eqb_spec (y mod 100) 0); destruct (Z.eqb_spec (y mod 400) 0);
    cbn [andb negb orb]; replace (y + 1 - 1) with y by lia;
    Z.to_euclidean_division_equations; lia.
Qed.

Ltac month_cases m :=
  let H := fresh in
  assert (H : m = 1 \/ m = 2 \/ m = 3 \/ m = 4 \/ m = 5 \/ m = 6 \/ m = 7 \/ m = 8 \/ m = 9 \/ m = 10
              \/ m = 11 \/ m = 12) by lia;
  destruct H as [->|[->|[->|[->|[->|[->|[->|[->|[->|[->|[->| ->]]]]]]]]]]].

Lemma month_next : forall y m, 1 <= m < 12 -> month_start y (m + 1) = month_start y m + month_days y m.
Proof.
  intros y m H. unfold month_start, month_days.
  month_cases m; try lia; destruct (leapb y); reflexivity.
Qed.

Lemma month_last : forall y, month_start y 12 + month_days y 12 = year_days y.
Proof. intro y. unfold month_start, month_days, year_days. destruct (leapb y); reflexivity. Qed.

Lemma month_days_range : forall y m, 28 <= month_days y m <= 31.
Proof.
  intros. unfold month_days. destruct (m =? 2); [destruct (leapb y); lia|].
  destruct (_ || _); lia.
Qed.

Lemma month_start_1 : forall y, month_start y 1 = 0.
Proof. reflexivity. Qed.

Lemma month_start_mono : forall y a b, 1 <= a -> a < b -> b <= 12 ->
  month_start y a + month_days y a <= month_start y b.
Proof.
  intros y a b Ha Hab Hb.
  month_cases a; month_cases b; try lia; unfold month_start, month_days; destruct (leapb y);
    apply Z.leb_le; reflexivity.
Qed.

Lemma in_year : forall y m d, valid_date y m d ->
  year_start y <= day_number y m d < year_start y + year_days y.
Proof.
  intros y m d [Hm Hd]. unfold day_number.
  assert (0 <= month_start y m).
  { unfold month_start. month_cases m; destruct (leapb y); apply Z.leb_le; reflexivity. }
  assert (month_start y m + month_days y m <= year_days y).
  { destruct (Z.eq_dec m 12) as [->|]; [rewrite month_last; lia|].
    pose proof (month_start_mono y m 12 ltac:(lia) ltac:(lia) ltac:(lia)).
    pose proof (month_last y). pose proof (month_days_range y 12). lia. }
  lia.
Qed.

Lemma year_start_mono : forall a b, a < b -> year_start a + year_days a <= year_start b.
Proof.
  intros a b H. rewrite <- year_next.
  assert (G : forall n x, 0 <= n -> year_start x <= year_start (x + n)).
  { intros n x Hn. pattern n. apply natlike_ind; [| |exact Hn].
    - rewrite Z.add_0_r. lia.
    - intros k Hk IH. replace (x + Z.succ k) with (x + k + 1) by lia. rewrite year_next.
      unfold year_days. destruct (leapb (x + k)); lia. }
  specialize (G (b - (a + 1)) (a + 1) ltac:(lia)). replace (a + 1 + (b - (a + 1))) with b in G by lia. lia.
Qed.

(** Day numbers identify dates. *)
Theorem day_number_unique : forall y m d y' m' d',
  valid_date y m d -> valid_date y' m' d' -> day_number y m d = day_number y' m' d' ->
  y = y' /\ m = m' /\ d = d'.
Proof.
  intros y m d y' m' d' V V' E.
  pose proof (in_year _ _ _ V). pose proof (in_year _ _ _ V').
  assert (y = y').
  { destruct (Z.lt_trichotomy y y') as [L|[Q|L]]; [|exact Q|].
    - pose proof (year_start_mono _ _ L). lia.
    - pose proof (year_start_mono _ _ L). lia. }
  subst y'. destruct V as [Hm Hd]. destruct V' as [Hm' Hd'].
  unfold day_number in E.
  assert (m = m').
  { destruct (Z.lt_trichotomy m m') as [L|[Q|L]]; [|exact Q|].
    - pose proof (month_start_mono y m m' ltac:(lia) L ltac:(lia)). lia.
    - pose proof (month_start_mono y m' m ltac:(lia) L ltac:(lia)). lia. }
  subst m'. repeat split; lia.
Qed.

(** ... and later dates have larger numbers. *)
Definition date_lt (y m d y' m' d' : Z) : Prop :=
  y < y' \/ (y = y' /\ (m < m' \/ (m = m' /\ d < d'))).

Theorem day_number_mono : forall y m d y' m' d',
  valid_date y m d -> valid_date y' m' d' ->
  (day_number y m d < day_number y' m' d' <-> date_lt y m d y' m' d').
Proof.
  assert (F : forall y m d y' m' d', valid_date y m d -> valid_date y' m' d' ->
    date_lt y m d y' m' d' -> day_number y m d < day_number y' m' d').
  { intros y m d y' m' d' V V' H. pose proof (in_year _ _ _ V). pose proof (in_year _ _ _ V').
    destruct H as [L|[<- [L|[<- L]]]].
    - pose proof (year_start_mono _ _ L). lia.
    - destruct V as [Hm Hd]. destruct V' as [Hm' Hd'].
      pose proof (month_start_mono y m m' ltac:(lia) L ltac:(lia)). unfold day_number. lia.
    - unfold day_number. lia. }
  intros y m d y' m' d' V V'. split; [|apply F; assumption].
  intro L.
  destruct (Z.lt_trichotomy y y') as [A|[A|A]]; [left; exact A| |].
  2: { pose proof (F y' m' d' y m d V' V (or_introl A)). lia. }
  subst y'. right. split; [reflexivity|].
  destruct (Z.lt_trichotomy m m') as [B|[B|B]]; [left; exact B| |].
  2: { pose proof (F y m' d' y m d V' V (or_intror (conj eq_refl (or_introl B)))). lia. }
  subst m'. right. split; [reflexivity|]. unfold day_number in L. lia.
Qed.
