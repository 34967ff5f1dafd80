(** QBondSpec.v -- vocabulary for the statements about bonds. *)
From Coq Require Import ZArith List Permutation Reals.
From Flocq Require Import Core IEEE754.BinarySingleNaN.
From Verif Require Import Base FloatModel KrxModel QDateModel QCalModel QPeriodModel QYearModel QSchedModel QCurveModel QInterpSpec QCurveSpec QBondModel.
Import ListNotations.
Open Scope Z_scope.

(** some order of iteration *)
Definition iterates {A} (order : list A -> list A) : Prop := forall l, Permutation (order l) l.

(** the amounts of [l] that fall on the point in time [x], in order *)
Definition falling (l : list (odt * f32)) (x : Z) : list f32 := map snd (filter (fun p => instant (fst p) =? x) l).
(** their sum, added up in order *)
Definition sum_in_order (l : list f32) : f32 := match l with [] => gzero | a :: r => fold_left gadd r a end.
(** [m] has one entry for every point in time on which something of [l] falls,
    and in it the sum of what falls there *)
Definition collects (m l : list (odt * f32)) : Prop :=
  NoDup (map (fun p => instant (fst p)) m) /\
  (forall d v, In (d, v) m -> In d (map fst l) /\ v = sum_in_order (falling l (instant d))) /\
  (forall d a, In (d, a) l -> exists d' v, In (d', v) m /\ instant d' = instant d).

(** what is still to be paid, from the pricing day on *)
Definition due (pricing : odt) (l : list (odt * f32)) : list (odt * f32) := filter (fun p => od_day pricing <=? od_day (fst p)) l.
(** what is paid after the pricing day *)
Definition future (pricing : odt) (l : list (odt * f32)) : list (odt * f32) := filter (fun p => od_day pricing <? od_day (fst p)) l.

(** numbered from [i] *)
Fixpoint numbered {A} (i : Z) (l : list A) : list (Z * A) := match l with [] => [] | a :: l' => (i, a) :: numbered (i + 1) l' end.

(** what a row of a schedule pays: the amount it carries; else the rate of a
    fixed coupon over its period; else the floating coupon *)
Definition pays (f_ln : f32 -> f32) (b : bond) (eval pricing : odt) (fwd : option curve) (past : option closes) (r : row) (x : f32) : Prop :=
  rw_amount r = Some x \/
  (rw_amount r = None /\ bd_index b = None /\ exists f rate, bd_fixed b = Some rate /\ year_fraction (bd_cal b) (calc_start_date (rw_dates r)) (calc_end_date (rw_dates r)) (bd_dc b) = Ret (ROk f) /\ x = gmul f rate) \/
  (rw_amount r = None /\ exists tenor c p, bd_index b = Some tenor /\ fwd = Some c /\ (past = Some p \/ past = None /\ p = no_closes) /\
     coupon_amount f_ln tenor (rw_dates r) (bd_spread b) eval c p pricing (bd_comp b) (bd_cal b) (bd_dc b) (bd_fix_gap b) = Ret (ROk x)).

(** ** Compounded overnight coupons *)

(** the rate that applies from [start]: the fixing is [gap] days before, on that
    business day or the one before it; a past fixing is the recorded rate (the
    [spot] rate if there is none), a future one is the forward rate *)
Definition overnight_rate (f_ln : f32 -> f32) (tenor : list Ascii.ascii) (eval : odt) (fwd : curve) (past : closes) (pricing : odt) (a : any_calendar) (gap : Z) (spot : f32) (start : odt) (r : f32) : Prop :=
  exists d fixing, add_days start (- gap) = Ret d /\ adjust a d Preceding = Ret (ROk fixing) /\
    ((instant fixing < instant pricing /\ close_on past (od_day fixing) = Some r) \/
     (instant fixing < instant pricing /\ close_on past (od_day fixing) = None /\ r = spot) \/
     (instant pricing <= instant fixing /\ exists e, add_period fixing tenor = Ret e /\ forward_dates f_ln eval fwd fixing e CSimple = Ret (ROk r))).
(** the sub-periods from [start] to [upto], each a compounding period long or
    what is left, with rate and year fraction *)
Inductive subperiods (rate : odt -> f32 -> Prop) (comp : list Ascii.ascii) (a : any_calendar) (dc : day_count) (upto : odt) : odt -> list (f32 * f32) -> Prop :=
| sp_end : forall start, instant upto <= instant start -> subperiods rate comp a dc upto start []
| sp_next : forall start e next r f l, instant start < instant upto -> add_period start comp = Ret e ->
    (next = e /\ instant e < instant upto \/ next = upto /\ instant upto <= instant e) -> year_fraction a start next dc = Ret (ROk f) -> rate start r ->
    subperiods rate comp a dc upto next l -> subperiods rate comp a dc upto start ((r, f) :: l).

Open Scope R_scope.
(** the discount factor at a date, 0 if there is none *)
Definition factor_on (eval : odt) (c : curve) (d : odt) : R := match discount_at eval c d with Ret (ROk y) => value y | _ => 0 end.
(** sums over cash flows *)
Definition sum_over (f : odt * f32 -> R) (l : list (odt * f32)) : R := fold_right (fun p s => f p + s) 0 l.
(** the present value, and that of the absolute amounts *)
Definition present_value (F : odt -> R) (l : list (odt * f32)) : R := sum_over (fun p => value (snd p) * F (fst p)) l.
Definition present_size (F : odt -> R) (l : list (odt * f32)) : R := sum_over (fun p => Rabs (value (snd p)) * F (fst p)) l.
(** the curve has a factor at the date, between 2^-20 and 2^20 *)
Definition priced (eval : odt) (disc : curve) (d : odt) : Prop :=
  exists D, discount_at eval disc d = Ret (ROk D) /\ finite D /\ / 2 ^ 20 <= value D <= 2 ^ 20.
(** an amount of at most 2^30 on a date that has a factor, if it lies after the
    pricing day *)
Definition good_flow (eval : odt) (disc : curve) (pricing : odt) (p : odt * f32) : Prop :=
  finite (snd p) /\ Rabs (value (snd p)) <= 2 ^ 30 /\ ((od_day pricing < od_day (fst p))%Z -> priced eval disc (fst p)).
(** (1 + (r1 + s) f1) (1 + (r2 + s) f2) ... *)
Definition growth (s : R) (l : list (f32 * f32)) : R := fold_right (fun p g => (1 + (value (fst p) + s) * value (snd p)) * g) 1 l.

(** ** Yields *)
(** c / b + c / b^2 + ... + c / b^n *)
Fixpoint annuity (c b : R) (n : nat) : R := match n with O => 0 | S n' => annuity c b n' + c / b ^ n end.
(** n coupons of c and 1 at the end, per period b *)
Definition annuity_bond (c b : R) (n : nat) : R := annuity c b n + / b ^ n.
(** an integer power whose relative error is at most one unit in the last
    place per factor *)
Definition good_powi (f : f32 -> Z -> f32) : Prop :=
  forall x i, finite x -> / 4 <= value x <= 2 -> / 2 ^ 41 <= value x ^ i <= 2 ^ 41 -> (Z.of_nat i <= 65536)%Z ->
    finite (f x (Z.of_nat i)) /\ Rabs (value (f x (Z.of_nat i)) - value x ^ i) <= value x ^ i * (2 * INR i / 2 ^ 24).
(** a power whose relative error is at most two units in the last place, and
    that is 1 where it should be *)
Definition good_powf (f : f32 -> f32 -> f32) : Prop :=
  (forall x e, finite x -> finite e -> value x = 1 \/ value e = 0 -> finite (f x e) /\ value (f x e) = 1) /\
  (forall x e, finite x -> finite e -> / 4 <= value x <= 2 -> 0 <= value e <= 5000 -> / 2 ^ 41 <= Rpower (value x) (value e) <= 2 ^ 41 ->
     finite (f x e) /\ Rabs (value (f x e) - Rpower (value x) (value e)) <= Rpower (value x) (value e) * (4 / 2 ^ 24)).
(** periods from [first] to [d], by 30/360 *)
Definition periods_to (a : any_calendar) (f : frequency) (first d : odt) (e : R) : Prop :=
  exists t, year_fraction a first d StreetConvention = Ret (ROk t) /\ finite t /\ (value t = 0 \/ / 2 ^ 20 <= value t) /\ e = value t * IZR (freq_number f).
(** the factor of a cash flow at [d]: 1 / b^periods, 0 if there is no fraction *)
Definition yield_factor (a : any_calendar) (f : frequency) (first : odt) (b : R) (d : odt) : R :=
  match year_fraction a first d StreetConvention with Ret (ROk t) => / Rpower b (value t * IZR (freq_number f)) | _ => 0 end.
(** the first payment after the pricing day, and the last one up to it *)
Definition first_after (pricing : odt) (m : list (odt * f32)) (first : odt) : Prop :=
  In first (map fst (future pricing m)) /\ forall d, In d (map fst (future pricing m)) -> (instant first <= instant d)%Z.
Definition last_until (pricing : odt) (b : bond) (last : odt) : Prop :=
  let paid := map (fun r => payment_date (rw_dates r)) (bd_rows b) in
  (In last paid /\ (od_day last <= od_day pricing)%Z /\ forall d, In d paid -> (od_day d <= od_day pricing)%Z -> (instant d < instant last)%Z \/ d = last) \/
  ((forall d, In d paid -> (od_day pricing < od_day d)%Z) /\ last = bd_issue b).
(** an amount of at most 2^30, at most [K] periods away if it lies after the
    pricing day, with a factor between 2^-40 and 2^40 *)
Definition good_yield_flow (a : any_calendar) (f : frequency) (pricing first : odt) (b : R) (K : nat) (p : odt * f32) : Prop :=
  finite (snd p) /\ Rabs (value (snd p)) <= 2 ^ 30 /\
  ((od_day pricing < od_day (fst p))%Z -> exists e, periods_to a f first (fst p) e /\ e <= INR K /\ / 2 ^ 40 <= Rpower b e <= 2 ^ 40).
(** sums and means of numbers *)
Definition total (l : list f32) : R := fold_right (fun y s => value y + s) 0 l.
Definition mean (l : list f32) : R := total l / INR (length l).
