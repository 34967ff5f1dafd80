(** QDateModel.v -- dates of the [time] crate as used by quantlib, and the
    [while] loop.

    The [time] crate is a dependency, not code of the repository: what is
    written here is the meaning its documentation gives (proleptic Gregorian
    dates of years -9999..=9999, the range without the feature [large-dates],
    see /repo/quantlib/Cargo.toml line 12).  A [Date] is its day number
    (1970-01-01 = 0); a [Month] is 1..12; a [Weekday] is 0 (Monday) .. 6. *)
From Coq Require Import ZArith List Bool Lia.
From Verif Require Import Base CivilSpec.
Import ListNotations.
Open Scope Z_scope.

(** ** The accessors of a date *)

(** [Date::year]: the year whose days include day [n] (an estimate from the
    mean year length, off by at most one, then corrected). *)
Definition date_year (n : Z) : Z :=
  let y := 1970 + (400 * n) / 146097 in
  if n <? year_start y then y - 1 else if year_start (y + 1) <=? n then y + 1 else y.

(** [Date::ordinal]: 1 = January 1st. *)
Definition date_ordinal (n : Z) : Z := n - year_start (date_year n) + 1.

(** [Date::month]: the last month starting on or before the day. *)
Fixpoint month_search (k : nat) (y o : Z) : Z :=
  match k with
  | O => 1
  | S k' => if month_start y (Z.of_nat k) <? o then Z.of_nat k else month_search k' y o
  end.
Definition date_month (n : Z) : Z := month_search 12 (date_year n) (date_ordinal n).

(** [Date::day] *)
Definition date_day (n : Z) : Z := date_ordinal n - month_start (date_year n) (date_month n).

(** [Date::weekday]: 1970-01-01 was a Thursday. *)
Definition date_weekday (n : Z) : Z := (n + 3) mod 7.

(** [Date::MIN], [Date::MAX] *)
Definition date_min : Z := -4371587.
Definition date_max : Z := 2932896.
Definition in_range (n : Z) : bool := (date_min <=? n) && (n <=? date_max).

(** [Date::from_calendar_date(y, m, d)] followed by [unwrap]. *)
Definition from_calendar_date (y m d : Z) : outcome Z :=
  if (-9999 <=? y) && (y <=? 9999) && (1 <=? d) && (d <=? month_days y m)
  then Ret (day_number y m d) else Panic.

(** [Date::from_ordinal_date(y, o)] followed by [unwrap]. *)
Definition from_ordinal_date (y o : Z) : outcome Z :=
  if (-9999 <=? y) && (y <=? 9999) && (1 <=? o) && (o <=? year_days y)
  then Ret (year_start y + o - 1) else Panic.

(** [Date + Duration::days(k)] *)
Definition date_add (n k : Z) : outcome Z := if in_range (n + k) then Ret (n + k) else Panic.

(** ** OffsetDateTime *)
Definition day_ns : Z := 86400000000000.
(** local date, nanosecond of the local day, offset from UTC in seconds *)
Record odt := Odt { od_day : Z; od_ns : Z; od_off : Z }.

(** The point in time, in nanoseconds since 1970-01-01T00:00Z; comparison and
    subtraction of OffsetDateTimes are those of their points in time. *)
Definition instant (d : odt) : Z := od_day d * day_ns + od_ns d - od_off d * 1000000000.

(** [date.to_offset(off)] *)
Definition to_offset (off : Z) (d : odt) : outcome odt :=
  let t := instant d + off * 1000000000 in
  if in_range (t / day_ns) then Ret (Odt (t / day_ns) (t mod day_ns) off) else Panic.

(** [date += Duration::days(k)] *)
Definition add_days (d : odt) (k : Z) : outcome odt :=
  let! n := date_add (od_day d) k in Ret (Odt n (od_ns d) (od_off d)).

(** ** Loops

    [while_loop f s] runs the loop body [f] from state [s] until it stops, at
    most 2^24 times (more days than there are dates, so that no loop over
    dates is cut short; theorems show that [Diverge] is not the result). *)
Inductive turn (T R : Type) : Type := Next (t : T) | Stop (r : outcome R).
Arguments Next {T R} t.
Arguments Stop {T R} r.

Fixpoint run_pow {T R} (k : nat) (f : T -> turn T R) (t : T) : turn T R :=
  match k with
  | O => f t
  | S k' => match run_pow k' f t with Next t' => run_pow k' f t' | Stop r => Stop r end
  end.

Definition while_loop {T R} (f : T -> turn T R) (t : T) : outcome R :=
  match run_pow 24 f t with Next _ => Diverge | Stop r => r end.

(** [?]-less sequencing inside a loop body *)
Definition turn_bind {A T R} (x : outcome A) (k : A -> turn T R) : turn T R :=
  match x with Ret a => k a | Panic => Stop Panic | Diverge => Stop Diverge end.
