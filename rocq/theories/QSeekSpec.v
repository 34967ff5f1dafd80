(** QSeekSpec.v -- yields and prices of a bond with fixed cash flows, in real numbers
    (C209, C210). *)
From Coq Require Import ZArith List Reals.
From Flocq Require Import Core IEEE754.BinarySingleNaN.
From Verif Require Import Base FloatModel KrxModel QDateModel QCalModel QPeriodModel QYearModel QInterpModel QInterpSpec QCurveModel QCurveSpec QBondModel QBondSpec.
Import ListNotations.
Open Scope R_scope.

(** the yield for one of the periods of the bond *)
Definition per_period (b : bond) (bond_yield : f32) : R := value bond_yield / IZR (freq_number (bd_freq b)).
(** what is left of the running period when the bond is priced, of all of it *)
Definition rest (pricing first last : odt) : R := IZR (od_day first - od_day pricing) / IZR (od_day first - od_day last).
(** the price at a yield: [m] the cash flows, [first] the next payment, [last] the one before *)
Definition price_at (b : bond) (pricing : odt) (m : list (odt * f32)) (first last : odt) (y : R) : R :=
  present_value (yield_factor (bd_cal b) (bd_freq b) first (1 + y)) (future pricing m) / (1 + y * rest pricing first last).
Definition size_at (b : bond) (pricing : odt) (m : list (odt * f32)) (first last : odt) (y : R) : R :=
  present_size (yield_factor (bd_cal b) (bd_freq b) first (1 + y)) (future pricing m) / (1 + y * rest pricing first last).
(** the error allowed for the computed price *)
Definition price_error (b : bond) (pricing : odt) (m : list (odt * f32)) (first last : odt) (K : nat) (y : R) : R :=
  let n := INR (length (future pricing m)) in size_at b pricing m first last y * ((3 * n + 29 * INR K + 210) / 2 ^ 24) + (n + 1) / 2 ^ 140.
(** a bond and what its cash flows are *)
Definition terms (f_ln : f32 -> f32) (eval : odt) (fwd : option curve) (past : option closes) (b : bond) (m : list (odt * f32)) (first last : odt) : Prop :=
  let pricing := pricing_of b eval in
  cashflows f_ln b eval pricing fwd past = Ret (ROk m) /\ first_after pricing m first /\ last_until pricing b last /\ (od_day last <= od_day pricing)%Z /\ (od_day first - od_day last <= 16777216)%Z /\ bd_freq b <> NoFrequency /\
  (Z.of_nat (length (future pricing m)) <= 1048576)%Z.
(** a yield of at most a half in each period, with which no factor leaves 2^-40 to 2^40 *)
Definition usual_yield (b : bond) (pricing first : odt) (m : list (odt * f32)) (K : nat) (bond_yield : f32) : Prop :=
  finite bond_yield /\ Rabs (per_period b bond_yield) <= / 2 /\ (Z.of_nat K <= 4096)%Z /\ Forall (good_yield_flow (bd_cal b) (bd_freq b) pricing first (1 + per_period b bond_yield) K) m.
(** a power that squares within 2^-22, up to underflow; a square that is a number is one of
    a number *)
Definition good_square (f_powf : f32 -> f32 -> f32) : Prop :=
  forall x, finite (f_powf x (gof_Z 2)) -> finite x /\ Rabs (value (f_powf x (gof_Z 2)) - value x * value x) <= value x * value x / 2 ^ 22 + / 2 ^ 99.
(** the periods to a payment *)
Definition periods (b : bond) (first d : odt) : R := match year_fraction (bd_cal b) first d StreetConvention with Ret (ROk t) => value t * IZR (freq_number (bd_freq b)) | _ => 0 end.
(** how much the price falls at least when the yield of a period rises by one: the present
    values weighted by their times *)
Definition slope (b : bond) (pricing : odt) (m : list (odt * f32)) (first last : odt) (y : R) : R :=
  let F := yield_factor (bd_cal b) (bd_freq b) first (1 + y) in let g := 1 + y * rest pricing first last in
  sum_over (fun p => value (snd p) * F (fst p) * periods b first (fst p)) (future pricing m) / (1 + y) / g + present_value F (future pricing m) * rest pricing first last / (g * g).
