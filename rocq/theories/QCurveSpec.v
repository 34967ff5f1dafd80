(** QCurveSpec.v -- vocabulary for the statements about zero curves. *)
From Coq Require Import ZArith List Reals.
From Flocq Require Import Core IEEE754.BinarySingleNaN.
From Verif Require Import Base CivilSpec FloatModel FloatFacts QDateModel QPeriodSpec QInterpSpec.
Import ListNotations.
Open Scope Z_scope.

(** ** The dates of the cached discount factors *)
Inductive step : Type := Days (k : Z) | Months (k : Z).
(** one step from a date: days on, or months on (the month's last day if there
    is no such day) *)
Definition stepped (s : step) (n n' : Z) : Prop :=
  match s with
  | Days k => n' = n + k
  | Months k => exists y m d, valid_date y m d /\ n = day_number y m d /\ months_after y m d k n'
  end.
Fixpoint walked (w : list step) (n n' : Z) : Prop :=
  match w with [] => n' = n | s :: w' => exists n1, stepped s n n1 /\ walked w' n1 n' end.
(** today, a day, one and two weeks, 1 to 6 and 9 months, a year, a year and a
    half, 2 years, two and a half, 3 to 10, 12, 15, 20, 30, 50 and 100 years *)
Definition grid : list (list step) :=
  [[Days 0]; [Days 1]; [Days 7]; [Days 14]; [Months 1]; [Months 2]; [Months 3]; [Months 4]; [Months 5]; [Months 6]; [Months 9]; [Months 12];
   [Months 12; Months 6]; [Months 24]; [Months 24; Months 6]; [Months 36]; [Months 48]; [Months 60]; [Months 72]; [Months 84]; [Months 96]; [Months 108];
   [Months 120]; [Months 144]; [Months 180]; [Months 240]; [Months 360]; [Months 600]; [Months 1200]].

(** ** exp and ln *)
Open Scope R_scope.
Definition value (x : f32) : R := B2R x.
(** [f] is an exponential function good to 2^-22 on [-64, 64], and right at 0 *)
Definition good_exp (f : f32 -> f32) : Prop :=
  (forall x, finite x -> value x = 0 -> finite (f x) /\ value (f x) = 1) /\
  (forall x, finite x -> Rabs (value x) <= 64 -> finite (f x) /\ Rabs (value (f x) - exp (value x)) <= exp (value x) / 2 ^ 22).

(** ** The rate at a time: linear between the given points, flat outside *)
Definition rate_at (ts vs : list f32) (t r : R) : Prop :=
  (exists v, vs = [v] /\ r = value v) \/
  (exists t0 v0, nth_error ts 0 = Some t0 /\ nth_error vs 0 = Some v0 /\ t < value t0 /\ r = value v0) \/
  (exists t9 v9, nth_error ts (length ts - 1) = Some t9 /\ nth_error vs (length vs - 1) = Some v9 /\ value t9 <= t /\ r = value v9) \/
  (exists i a b u w, nth_error ts i = Some a /\ nth_error ts (i + 1) = Some b /\ nth_error vs i = Some u /\ nth_error vs (i + 1) = Some w /\
     value a <= t < value b /\ r = value u + (value w - value u) * ((t - value a) / (value b - value a))).
(** [f] is a natural logarithm good to 2^-22 on the positive numbers *)
Definition good_ln (f : f32 -> f32) : Prop :=
  forall x, finite x -> 0 < value x -> finite (f x) /\ Rabs (value (f x) - ln (value x)) <= Rabs (ln (value x)) / 2 ^ 22.
