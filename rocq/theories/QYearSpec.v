(** QYearSpec.v -- day counts as published. *)
From Coq Require Import ZArith Bool Reals.
From Verif Require Import Base CivilSpec FloatModel FloatFacts QDateModel QCalSpec.
Open Scope Z_scope.

(** [x] is the f32 nearest to the real number [q] (ties to even) *)
Definition nearest_f32 (x : f32) (q : R) : Prop := fin 24 128 x (rnd 24 128 q).
(** [x] is a finite f32 within [eps] of [q] *)
Definition within_f32 (x : f32) (q eps : R) : Prop := exists v, fin 24 128 x v /\ (Rabs (v - q) <= eps)%R.

(** full days between two points in time *)
Definition full_days (s e : odt) : Z := (instant e - instant s) / day_ns.

(** ** 30/360

    US (bond basis): a start on the 31st counts as the 30th; an end on the 31st
    counts as the 30th if the start is on the 30th or 31st. *)
Definition days_30_360_us (y1 m1 d1 y2 m2 d2 : Z) : Z :=
  let d1' := if d1 =? 31 then 30 else d1 in
  let d2' := if (d2 =? 31) && (d1' =? 30) then 30 else d2 in
  360 * (y2 - y1) + 30 * (m2 - m1) + (d2' - d1').
(** Eurobond basis: every 31st counts as the 30th. *)
Definition days_30_360_eu (y1 m1 d1 y2 m2 d2 : Z) : Z :=
  let d1' := if d1 =? 31 then 30 else d1 in
  let d2' := if d2 =? 31 then 30 else d2 in
  360 * (y2 - y1) + 30 * (m2 - m1) + (d2' - d1').

(** ** Actual/Actual (ISDA): in every year, the time that falls into it over
    the length of that year.  [unit] is the length of a day. *)
Definition overlap (a b lo hi : Z) : Z := Z.max 0 (Z.min b hi - Z.max a lo).
Fixpoint act_act (unit : Z) (years : nat) (y a b : Z) : R :=
  match years with
  | O => 0%R
  | S n => (IZR (overlap a b (unit * day_number y 1 1) (unit * day_number (y + 1) 1 1)) / IZR (unit * year_days y)
            + act_act unit n (y + 1) a b)%R
  end.
(** from day [a] to day [b], in the years [y1] to [y2] *)
Definition act_act_days (y1 y2 a b : Z) : R := act_act 1 (Z.to_nat (y2 - y1 + 1)) y1 a b.
(** local clock in nanoseconds since 1970-01-01 00:00 local time *)
Definition clock (d : odt) : Z := od_day d * day_ns + od_ns d.
Definition act_act_time (y1 y2 : Z) (s e : odt) : R := act_act day_ns (Z.to_nat (y2 - y1 + 1)) y1 (clock s) (clock e).
