(** QSchedSpec.v -- vocabulary for the statements about schedules: the dates a
    frequency steps through, and what a schedule built on given dates is. *)
From Coq Require Import ZArith List Bool.
From Verif Require Import Base CivilSpec QDateModel QCalModel QCalSpec QPeriodModel QPeriodSpec QSchedModel.
Import ListNotations.
Open Scope Z_scope.

(** the step of a frequency: months or days *)
Inductive step := Months (k : Z) | Days (k : Z).
Definition freq_step (f : frequency) : option step :=
  match f with
  | Daily => Some (Days 1) | Weekly => Some (Days 7) | BiWeekly => Some (Days 14) | SemiMonthly => Some (Days 14)
  | Monthly => Some (Months 1) | SemiQuarterly => Some (Months 2) | Quarterly => Some (Months 3) | TriAnnually => Some (Months 4)
  | SemiAnnually => Some (Months 6) | Annually => Some (Months 12) | NoFrequency => None
  end.
(** payments in a year (the value of the enumeration) *)
Definition per_year (f : frequency) : Z :=
  match f with
  | Daily => 252 | Weekly => 52 | BiWeekly => 26 | SemiMonthly => 24 | Monthly => 12 | SemiQuarterly => 6 | Quarterly => 4
  | TriAnnually => 3 | SemiAnnually => 2 | Annually => 1 | NoFrequency => 0
  end.

(** [r] lies [i] steps after [d] (before it if [i] is negative): same time of day, same offset *)
Definition steps_after (f : frequency) (d : odt) (i : Z) (r : odt) : Prop :=
  od_ns r = od_ns d /\ od_off r = od_off d /\
  match freq_step f with
  | Some (Months k) => exists y m dd, valid_date y m dd /\ od_day d = day_number y m dd /\ months_after y m dd (k * i) (od_day r)
  | Some (Days k) => od_day r = od_day d + k * i
  | None => False
  end.

(** [l] is the schedule on the dates [raw 0], [raw 1], ..., [raw (length l)] *)
Definition built_on (raw : nat -> odt) (eff mat : odt) (a : any_calendar) (cv : convention) (fg pg : Z) (l : list coupon) : Prop :=
  forall i c, nth_error l i = Some c ->
    (i = O -> calc_start_date c = eff) /\
    (i <> O -> adjust a (raw i) cv = Ret (ROk (calc_start_date c))) /\
    (i <> O -> (i + 1 = length l)%nat -> calc_end_date c = mat /\ payment_date c = mat) /\
    (i = O \/ (i + 1 < length l)%nat ->
       adjust a (raw (i + 1)%nat) cv = Ret (ROk (calc_end_date c)) /\
       adjust a (later (calc_end_date c) pg) cv = Ret (ROk (payment_date c))) /\
    adjust a (later (calc_start_date c) (- fg)) Preceding = Ret (ROk (fixing_date c)) /\
    instant (calc_start_date c) < instant (calc_end_date c).

(** the first coupon starts on the effective date, any other where the one before ended *)
Definition coupon_start (eff : odt) (adj : nat -> odt) (i : nat) : odt := match i with O => eff | _ => adj i end.
(** the last of several coupons ends at maturity *)
Definition coupon_end (mat : odt) (adj : nat -> odt) (n i : nat) : odt :=
  if negb (i =? 0)%nat && (i + 1 =? n)%nat then mat else adj (i + 1)%nat.
