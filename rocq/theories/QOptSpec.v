(** QOptSpec.v -- vocabulary for the statements about options. *)
From Coq Require Import ZArith Reals.
From Flocq Require Import Core IEEE754.BinarySingleNaN.
From Verif Require Import FloatModel QInterpSpec QCurveSpec QMoneyModel QFutModel QNormal.
Open Scope R_scope.

(** a routine for the normal distribution function: right to 2^-22, between 0
    and 1, and 1, 0 and no number at plus infinity, minus infinity and NaN *)
Definition good_cdf (f : f32 -> f32) : Prop :=
  (forall x, finite x -> finite (f x) /\ 0 <= value (f x) <= 1 /\ Rabs (value (f x) - Phi (value x)) <= / 2 ^ 22) /\
  (finite (f (B754_infinity false)) /\ value (f (B754_infinity false)) = 1) /\
  (finite (f (B754_infinity true)) /\ value (f (B754_infinity true)) = 0) /\
  is_finite (f B754_nan) = false.

(** what is paid at maturity, given the price then *)
Definition payoff (k : option_type) (price strike : R) : R := match k with Call => Rmax (price - strike) 0 | Put => Rmax (strike - price) 0 end.

(** Black's formula for the expected payoff: forward, strike, standard
    deviation of the logarithm *)
Definition black_value (k : option_type) (F K s : R) : R :=
  let d1 := ln (F / K) / s + s / 2 in
  let d2 := ln (F / K) / s - s / 2 in
  match k with
  | Call => F * Phi d1 - K * Phi d2
  | Put => K * Phi (- d2) - F * Phi (- d1)
  end.

(** the same option as call or put *)
Definition as_type (k : option_type) (o : vanilla) : vanilla := Vanilla (vo_strike o) (vo_notional o) (vo_maturity o) (vo_und_ccy o) (vo_ccy o) (vo_quanto_fx o) k.
(** a forward or strike the statements speak about *)
Definition level_ok (x : f32) : Prop := finite x /\ 0 < value x <= 2 ^ 30.
(** the price at maturity when the logarithm has deviation s, the expectation
    is F and the normal variable is x *)
Definition lognormal (F s x : R) : R := F * exp (s * x - s * s / 2).
