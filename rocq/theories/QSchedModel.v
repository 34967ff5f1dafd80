(** QSchedModel.v -- payment schedules of quantlib
    (quantlib/src/instruments/schedule.rs). *)
From Coq Require Import ZArith List Bool Ascii.
From Verif Require Import Base CivilSpec QDateModel QCalModel QPeriodModel.
Import ListNotations.
Open Scope Z_scope.

(** schedule.rs 16-23: BaseSchedule, without the amount, which build_schedule leaves None *)
Record coupon := Coupon { fixing_date : odt; calc_start_date : odt; calc_end_date : odt; payment_date : odt }.

(** schedule.rs 137-142: a turn of the forward loop.  The state is the dates
    pushed so far, the count (i32: far fewer turns than days) and the last date. *)
Definition forward_turn (m : build) (eff mat : odt) (f : frequency) (st : list odt * Z * odt) : turn (list odt * Z * odt) (list odt) :=
  let '(v, count, raw) := st in
  if instant raw <? instant mat then
    turn_bind (to_string_with_multiple m f count) (fun s =>
    turn_bind (add_period eff s) (fun raw' => Next ((v ++ [raw'])%list, count + 1, raw')))
  else Stop (Ret v).
(** schedule.rs 148-152: a turn of the backward loop *)
Definition backward_turn (m : build) (eff mat : odt) (f : frequency) (st : list odt * Z * odt) : turn (list odt * Z * odt) (list odt) :=
  let '(v, count, raw) := st in
  if instant eff <? instant raw then
    turn_bind (to_string_with_multiple m f count) (fun s =>
    turn_bind (sub_period mat s) (fun raw' => Next (raw' :: v, count + 1, raw')))
  else Stop (Ret v).
(** schedule.rs 130-154: the raw dates *)
Definition raw_dates (m : build) (forward : bool) (eff mat : odt) (f : frequency) : outcome (list odt) :=
  if forward then while_loop (forward_turn m eff mat f) ([eff], 1, eff)
  else while_loop (backward_turn m eff mat f) ([mat], 1, mat).

(** schedule.rs 155-158: adjust all; stops at the first error *)
Fixpoint adjust_all (a : any_calendar) (cv : convention) (v : list odt) : outcome (rresult (list odt)) :=
  match v with
  | [] => Ret (ROk [])
  | d :: v' =>
      let! x := adjust a d cv in
      match x with
      | RErr => Ret RErr
      | ROk r => let! y := adjust_all a cv v' in Ret (match y with ROk rs => ROk (r :: rs) | RErr => RErr end)
      end
  end.

(** schedule.rs 167-193: the four dates of coupon [i] of [n]; [s], [e] are the
    adjusted dates i and i+1.  [date + Duration::days(k)] panics out of range. *)
Definition make_coupon (eff mat : odt) (a : any_calendar) (cv : convention) (fg pg : Z) (i n : nat) (s e : odt) : outcome (rresult coupon) :=
  let start := if (i =? 0)%nat then eff else s in
  let is_last := negb (i =? 0)%nat && (i =? n - 1)%nat in
  let finish := if is_last then mat else e in
  let! fd := add_days start (- fg) in
  let! fx := adjust a fd Preceding in
  match fx with
  | RErr => Ret RErr
  | ROk fixing =>
      let! px := (if is_last then Ret (ROk mat)
                  else let! pd := add_days finish pg in adjust a pd cv) in
      match px with
      | RErr => Ret RErr
      | ROk pay => Ret (ROk (Coupon fixing start finish pay))
      end
  end.

(** schedule.rs 166-225: the loop over the coupons; an empty or reversed one is an error *)
Fixpoint coupons (eff mat : odt) (a : any_calendar) (cv : convention) (fg pg : Z) (i n : nat) (v : list odt) : outcome (rresult (list coupon)) :=
  match v with
  | [] => Ret (ROk [])
  | s :: v' =>
      match v' with
      | [] => Ret (ROk [])
      | e :: _ =>
          let! x := make_coupon eff mat a cv fg pg i n s e in
          match x with
          | RErr => Ret RErr
          | ROk c =>
              if instant (calc_end_date c) <=? instant (calc_start_date c) then Ret RErr
              else let! y := coupons eff mat a cv fg pg (i + 1) n v' in
                   Ret (match y with ROk cs => ROk (c :: cs) | RErr => RErr end)
          end
      end
  end.

(** schedule.rs 107-229: build_schedule *)
Definition build_schedule (m : build) (forward : bool) (eff mat : odt) (a : any_calendar) (cv : convention) (f : frequency) (fg pg : Z)
  : outcome (rresult (list coupon)) :=
  if (pg <? 0) || (fg <? 0) then Ret RErr
  else
    let! raw := raw_dates m forward eff mat f in
    let! adj := adjust_all a cv raw in
    match adj with
    | RErr => Ret RErr
    | ROk v => coupons eff mat a cv fg pg 0 (List.length v - 1) v
    end.
