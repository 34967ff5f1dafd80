(** QYearModel.v -- day counts and time differences of quantlib
    (quantlib/src/time/calendar_trait.rs; no calendar overrides these methods
    except the joint one). *)
From Coq Require Import ZArith List Bool Reals.
From Flocq Require Import Core.
From Flocq Require Import IEEE754.BinarySingleNaN.
From Verif Require Import Base CivilSpec FloatModel QDateModel QCalModel.
Import ListNotations.
Open Scope Z_scope.

(** [x as f32] for a f64 [x]: round to nearest even; infinities and NaN stay *)
Definition f32_of_f64 (x : f64) : f32 :=
  match x with
  | B754_zero s => B754_zero s
  | B754_infinity s => B754_infinity s
  | B754_nan => B754_nan
  | B754_finite s m e _ => binary_normalize 24 128 p24 e128 mode_NE (SpecFloat.cond_Zopp s (Zpos m)) e s
  end.

(** [time::Duration] is its nanoseconds.  [whole_days] and [whole_seconds]
    truncate; [as_seconds_f64] adds the seconds and the rest. *)
Definition whole_days (ns : Z) : Z := Z.quot ns day_ns.
Definition as_seconds_f64 (ns : Z) : f64 :=
  gadd (gof_Z (Z.quot ns 1000000000)) (gdiv (gof_Z (Z.rem ns 1000000000)) (gof_Z 1000000000)).

(** conventions.rs 16-25 *)
Inductive day_count := Actual365Fixed | Actual360 | Actual364 | Thirty360 | ActActIsda | StreetConvention | DummyCount.

(** calendar_trait.rs 206-210 and 299-303: days_in_year *)
Definition days_in_year (y : Z) : f32 := gof_Z (if is_leap_year y then 366 else 365).

(** [for year in start_year..=end_year { frac += part(year) }] *)
Fixpoint year_loop (n : nat) (part : Z -> outcome f32) (y : Z) (frac : f32) : outcome f32 :=
  match n with
  | O => Ret frac
  | S n' => let! p := part y in year_loop n' part (y + 1) (gadd frac p)
  end.
Definition over_years (part : Z -> outcome f32) (start_year end_year : Z) : outcome f32 :=
  year_loop (Z.to_nat (end_year - start_year + 1)) part start_year gzero.

(** calendar_trait.rs 205-229: what one year adds under ActActIsda *)
Definition isda_part (s e : odt) (year : Z) : outcome f32 :=
  let start_year := date_year (od_day s) in
  let end_year := date_year (od_day e) in
  if year =? start_year then
    if end_year =? start_year
    then Ret (gdiv (gof_Z (whole_days (instant e - instant s))) (days_in_year year))
    else let! last := from_calendar_date year 12 31 in
         Ret (gdiv (gof_Z (last - od_day s)) (days_in_year year))
  else if year =? end_year then
    let! last := from_calendar_date (year - 1) 12 31 in
    Ret (gdiv (gof_Z (od_day e - last)) (days_in_year year))
  else Ret (gof_Z 1).

(** calendar_trait.rs 181-189: Thirty360 (the differences of i32 do not overflow) *)
Definition thirty360_days (s e : odt) : Z :=
  360 * (date_year (od_day e) - date_year (od_day s)) + 30 * (date_month (od_day e) - date_month (od_day s))
  + (date_day (od_day e) - date_day (od_day s)).
(** calendar_trait.rs 234-249: StreetConvention *)
Definition street_days (s e : odt) : Z :=
  let days := thirty360_days s e in
  if date_day (od_day s) =? 31 then (if date_day (od_day e) =? 31 then days - 30 else days + 1) else days.

(** calendar_trait.rs 159-253: year_fraction, for a calendar that is not joint *)
Definition cal_year_fraction (s e : odt) (dc : day_count) : outcome (rresult f32) :=
  if instant e <? instant s then Ret RErr
  else
    let days := whole_days (instant e - instant s) in
    match dc with
    | Actual365Fixed => Ret (ROk (gdiv (gof_Z days) (gof_Z 365)))
    | Actual360 => Ret (ROk (gdiv (gof_Z days) (gof_Z 360)))
    | Actual364 => Ret (ROk (gdiv (gof_Z days) (gof_Z 364)))
    | Thirty360 => Ret (ROk (gdiv (gof_Z (thirty360_days s e)) (gof_Z 360)))
    | ActActIsda => let! x := over_years (isda_part s e) (date_year (od_day s)) (date_year (od_day e)) in Ret (ROk x)
    | StreetConvention => Ret (ROk (gdiv (gof_Z (street_days s e)) (gof_Z 360)))
    | DummyCount => Ret RErr
    end.
(** jointcalendar.rs 45-52: the first calendar's ([calendars[0]] panics if there is none) *)
Definition year_fraction (a : any_calendar) (s e : odt) (dc : day_count) : outcome (rresult f32) :=
  match a with
  | One _ => cal_year_fraction s e dc
  | Joint [] => Panic
  | Joint (_ :: _) => cal_year_fraction s e dc
  end.

(** [duration.as_seconds_f64() as f32 / (24.0 * 60.0 * 60.0)] *)
Definition days_f32 (ns : Z) : f32 :=
  gdiv (f32_of_f64 (as_seconds_f64 ns)) (gmul (gmul (gof_Z 24) (gof_Z 60)) (gof_Z 60)).

(** [OffsetDateTime::new_in_offset(date, Time::MIDNIGHT, offset)] *)
Definition at_midnight (n off : Z) : odt := Odt n 0 off.

(** calendar_trait.rs 298-334: what one year adds *)
Definition time_part (s e : odt) (year : Z) : outcome f32 :=
  let start_year := date_year (od_day s) in
  let end_year := date_year (od_day e) in
  if year =? start_year then
    if end_year =? start_year
    then Ret (gdiv (days_f32 (instant e - instant s)) (days_in_year year))
    else let! last := from_calendar_date year 12 31 in
         Ret (gdiv (days_f32 (instant (at_midnight last (od_off s)) - instant s)) (days_in_year year))
  else if year =? end_year then
    let! last := from_calendar_date (year - 1) 12 31 in
    Ret (gdiv (days_f32 (instant e - instant (at_midnight last (od_off s)))) (days_in_year year))
  else Ret (gof_Z 1).

(** calendar_trait.rs 293-337: get_time_difference *)
Definition get_time_difference (s e : odt) : outcome f32 :=
  over_years (time_part s e) (date_year (od_day s)) (date_year (od_day e)).
