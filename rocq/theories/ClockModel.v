(** ClockModel.v -- counters, civil time of a timestamp, timestamp
    differences, trade averages (trading-engine/src/utils/counter.rs,
    utils/timer.rs, types/timestamp.rs, types/base.rs). *)
From Coq Require Import ZArith List Bool Lia.
From Verif Require Import Base.
Import ListNotations.
Open Scope Z_scope.

(** ** Counters.  The only shared operation is one [fetch_add] (SeqCst) per
    call, so an execution by any number of threads is the sequence of its
    calls in modification order; [usize] is 64 bits. *)

(** counter.rs 4-17 and 37-50: [CounterUsize], [CounterU64]. *)
Record counter : Type := Counter { c_start : Z; c_end : Z; c_value : Z }.
Definition counter_new (start end_ : Z) : counter := Counter start end_ start.

(** [fetch_add(1)]: atomics wrap in every build. *)
Definition fetch_add1 (v : Z) : Z * Z := (v, (v + 1) mod two64).

(** counter.rs 19-33 and 52-66: [next]. *)
Definition counter_next (c : counter) : rresult Z * counter :=
  let (res, v') := fetch_add1 (c_value c) in
  (if c_end c <? res then RErr else ROk res, Counter (c_start c) (c_end c) v').

(** counter.rs 69-102: [UnboundedCounterUsize], [UnboundedCounterU64]. *)
Definition unbounded_next (v : Z) : Z * Z := fetch_add1 v.

(** The answers of [n] calls, in modification order. *)
Fixpoint counter_run (n : nat) (c : counter) : list (rresult Z) :=
  match n with
  | O => []
  | S k => let (r, c') := counter_next c in r :: counter_run k c'
  end.
Fixpoint unbounded_run (n : nat) (v : Z) : list Z :=
  match n with
  | O => []
  | S k => let (r, v') := unbounded_next v in r :: unbounded_run k v'
  end.

(** types/base.rs 21-25: [VirtualOrderId::next_id] ([&mut self], plain [+=]). *)
Definition next_id (m : build) (id : Z) : outcome (Z * Z) :=
  let! id' := uadd m id 1 in Ret (id, id').

(** ** Civil time *)

(** timer.rs 142-144: [is_leap_year]. *)
Definition is_leap_year (year : Z) : bool :=
  ((Z.rem year 4 =? 0) && negb (Z.rem year 100 =? 0)) || (Z.rem year 400 =? 0).

(** timer.rs 146-167: [days_in_month]. *)
Definition days_in_month (year month : Z) : Z :=
  if month =? 1 then 31
  else if month =? 2 then (if is_leap_year year then 29 else 28)
  else if month =? 3 then 31
  else if month =? 4 then 30
  else if month =? 5 then 31
  else if month =? 6 then 30
  else if month =? 7 then 31
  else if month =? 8 then 31
  else if month =? 9 then 30
  else if month =? 10 then 31
  else if month =? 11 then 30
  else if month =? 12 then 31
  else 0.

(** timer.rs 119-126: the year loop, on fuel.  [days] only decreases, so the
    subtraction is exact; the year stays far below the i32 bound because at
    most 2^32 / 365 years are counted. *)
Fixpoint find_year (fuel : nat) (days year : Z) : outcome (Z * Z) :=
  match fuel with
  | O => Diverge
  | S f =>
      let days_in_year := if is_leap_year year then 366 else 365 in
      if days <? days_in_year then Ret (year, days)
      else find_year f (days - days_in_year) (year + 1)
  end.

(** timer.rs 129-137: the month loop, on fuel. *)
Fixpoint find_month (fuel : nat) (year days month : Z) : outcome (Z * Z) :=
  match fuel with
  | O => Diverge
  | S f =>
      if 0 <? days then
        let dim := days_in_month year month in
        if days <? dim then Ret (month, days)
        else find_month f year (days - dim) (month + 1)
      else Ret (month, days)
  end.

(** timer.rs 115-140: [days_to_date]. *)
Definition days_to_date (days : Z) : outcome (Z * Z * Z) :=
  let! (year, rest) := find_year (S (Z.to_nat days)) days 1970 in
  let! (month, rest') := find_month 14 year rest 1 in
  Ret (year, month, rest' + 1).

(** timer.rs 57-69: [time_components_from_unix_nano]; the casts to u8 and u16
    are written out. *)
Definition time_components (unix_nano : Z) : Z * Z * Z * Z :=
  let total_seconds := unix_nano / 1000000000 in
  let nanos := unix_nano mod 1000000000 in
  let seconds_of_day := total_seconds mod 86400 in
  ((seconds_of_day / 3600) mod 256, ((seconds_of_day mod 3600) / 60) mod 256,
   (seconds_of_day mod 60) mod 256, (nanos / 1000000) mod 65536).

(** [a + b], [a - b] on i32. *)
Definition i32_result (m : build) (x : Z) : outcome Z :=
  if (-2147483648 <=? x) && (x <=? 2147483647) then Ret x
  else match m with
       | Checked => Panic
       | Wrapping => Ret ((x + 2147483648) mod 4294967296 - 2147483648)
       end.

(** Rust's [{}] of an integer: minimal decimal digits in ASCII, sign first. *)
Fixpoint dec_digits (fuel : nat) (v : Z) : list Z :=
  match fuel with
  | O => []
  | S f => if v <? 10 then [48 + v] else dec_digits f (v / 10) ++ [48 + v mod 10]
  end.
(** [{:0w}]: padded with zeros (after the sign) to at least [w] characters;
    39 digits hold any Rust integer. *)
Definition fmt_padded (w : nat) (v : Z) : list Z :=
  let body := dec_digits 40 (Z.abs v) in
  let sgn := if v <? 0 then [45] else [] in
  sgn ++ repeat 48 (w - length sgn - length body) ++ body.

(** timer.rs 71-113: [convert_unix_nano_to_date_and_time]. *)
Definition convert_unix_nano (m : build) (unix_nano utc_offset_hour : Z) : outcome (list Z * list Z) :=
  let nanos_in_sec := 1000000000 in
  let nanos_in_min := 60 * nanos_in_sec in
  let nanos_in_hour := 60 * nanos_in_min in
  let nanos_in_day := 24 * nanos_in_hour in
  let days_since_epoch := unix_nano / nanos_in_day in
  let r1 := unix_nano mod nanos_in_day in
  let hours := r1 / nanos_in_hour in
  let r2 := r1 mod nanos_in_hour in
  let minutes := r2 / nanos_in_min in
  let r3 := r2 mod nanos_in_min in
  let seconds := r3 / nanos_in_sec in
  let r4 := r3 mod nanos_in_sec in
  let millis := r4 / 1000000 in
  let r5 := r4 mod 1000000 in
  let micros := r5 / 1000 in
  let nanos := r5 mod 1000 in
  let! total_hours := i32_result m (hours + utc_offset_hour) in
  (* days_since_epoch <= 2^64 / day, so the cast to i32 keeps the value *)
  let total_days := days_since_epoch in
  let '(th, td) :=
    if 24 <=? total_hours then (total_hours - 24, total_days + 1)
    else if total_hours <? 0 then (total_hours + 24, total_days - 1)
    else (total_hours, total_days) in
  (* [total_days as u32] *)
  let! (year, month, day) := days_to_date (td mod 4294967296) in
  Ret (fmt_padded 4 year ++ fmt_padded 2 month ++ fmt_padded 2 day,
       fmt_padded 2 th ++ [58] ++ fmt_padded 2 minutes ++ [58] ++ fmt_padded 2 seconds ++ [46] ++
       fmt_padded 3 millis ++ [58] ++ fmt_padded 3 micros ++ [58] ++ fmt_padded 3 nanos).

(** ** Timestamp differences *)

(** timestamp.rs 165-170: [div_rem]; the product never exceeds the dividend. *)
Definition div_rem (dividend divisor : Z) : Z * Z :=
  let quotient := dividend / divisor in (quotient, dividend - quotient * divisor).

(** timestamp.rs 172-211: [diff_in_nanos] ... [diff_in_days], up to the final
    conversion to f64: the pair (quotient, remainder) with the scale, standing
    for quotient + remainder / scale. *)
Definition diff_in (m : build) (scale a b : Z) : outcome (Z * Z) :=
  let! d := usub m a b in Ret (div_rem d scale).

(** timestamp.rs 14-19. *)
Definition micro_scale : Z := 1000.
Definition milli_scale : Z := 1000000.
Definition second_scale : Z := 1000000000.
Definition minute_scale : Z := 60 * second_scale.
Definition hour_scale : Z := 60 * minute_scale.
Definition day_scale : Z := 24 * hour_scale.

(** ** Average trade price *)

(** [x as i64] of a u64. *)
Definition u64_as_i64 (x : Z) : Z := if x <=? i64_max then x else x - two64.

(** [a + b], [a * b] on i64. *)
Definition i64_result (m : build) (x : Z) : outcome Z :=
  if (i64_min <=? x) && (x <=? i64_max) then Ret x
  else match m with
       | Checked => Panic
       | Wrapping => Ret ((x - i64_min) mod two64 + i64_min)
       end.

(** base.rs 92-103: [average_trade_price], up to the final float division:
    the pair (sum, total_quantity). *)
Fixpoint average_parts (m : build) (l : list (Z * Z)) (sum total : Z) : outcome (Z * Z) :=
  match l with
  | [] => Ret (sum, total)
  | (price, quantity) :: r =>
      let! p := i64_result m (price * u64_as_i64 quantity) in
      let! sum' := i64_result m (sum + p) in
      let! total' := uadd m total quantity in
      average_parts m r sum' total'
  end.

(** The ids handed out by [n] calls of [next_id]. *)
Fixpoint next_ids (m : build) (n : nat) (id : Z) : outcome (list Z) :=
  match n with
  | O => Ret []
  | S k => let! (a, id') := next_id m id in
           let! rest := next_ids m k id' in Ret (a :: rest)
  end.
