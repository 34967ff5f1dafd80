(** QCalModel.v -- the calendars of quantlib (file names below are relative to
    quantlib/src/time and quantlib/src/time/calendars).

    A date handed to a holiday rule is only looked at through year, month, day,
    weekday and day of the year, so the rules take these fields.  Log
    warnings are left out. *)
From Coq Require Import ZArith List Bool.
From Verif Require Import Base CivilSpec QDateModel QCalTables.
Import ListNotations.
Open Scope Z_scope.

(** [a..=b].contains(&d) *)
Definition within (a b d : Z) : bool := (a <=? d) && (d <=? b).
Definition Mon : Z := 0. Definition Tue : Z := 1. Definition Wed : Z := 2. Definition Thu : Z := 3.
Definition Fri : Z := 4. Definition Sat : Z := 5. Definition Sun : Z := 6.

(** What the rules look at: calendar_trait.rs 14-22, holiday.rs 12-20 and
    unitedstates.rs 17-25 ([unpack]), with the date itself. *)
Record fields := Fields { f_date : Z; f_year : Z; f_month : Z; f_day : Z; f_weekday : Z; f_ordinal : Z }.
Definition unpack (n : Z) : fields :=
  let y := date_year n in
  let o := n - year_start y + 1 in
  let m := month_search 12 y o in
  Fields n y m (o - month_start y m) (date_weekday n) o.

(** calendar_trait.rs 24-27: _is_weekend *)
Definition weekend (f : fields) : bool := (f_weekday f =? Sat) || (f_weekday f =? Sun).

(** holiday.rs 22-35: is_good_friday (the years 1901..2199 are those of the
    tables, so indexing does not panic) *)
Definition is_good_friday (f : fields) (is_orthodox : bool) : bool :=
  let y := f_year f in let dd := f_ordinal f in
  if (y <? 1901) || (2199 <? y) then false
  else if is_orthodox then dd =? nth (Z.to_nat (y - 1901)) easter_mondays_0 0 - 3
  else dd =? nth (Z.to_nat (y - 1901)) easter_mondays_1 0 - 3.

(** ** United States *)

(** unitedstates.rs 8-14 *)
Inductive us_type := UsSettlement | UsNyse | UsGovernmentBond | UsFederalReserve | UsSofr.

(** unitedstates.rs 27-36: is_washington_birthday *)
Definition is_washington_birthday (f : fields) : bool :=
  let y := f_year f in let m := f_month f in let d := f_day f in let w := f_weekday f in
  if 1971 <=? y then within 15 21 d && (w =? Mon) && (m =? 2)
  else ((d =? 22) || ((d =? 23) && (w =? Mon)) || ((d =? 21) && (w =? Fri))) && (m =? 2).

(** unitedstates.rs 38-47: is_memorial_day *)
Definition is_memorial_day (f : fields) : bool :=
  let y := f_year f in let m := f_month f in let d := f_day f in let w := f_weekday f in
  if 1971 <=? y then (25 <=? d) && (w =? Mon) && (m =? 5)
  else ((d =? 30) || ((d =? 31) && (w =? Mon)) || ((d =? 29) && (w =? Fri))) && (m =? 5).

(** unitedstates.rs 49-53: is_labor_day *)
Definition is_labor_day (f : fields) : bool :=
  (f_day f <=? 7) && (f_weekday f =? Mon) && (f_month f =? 9).

(** unitedstates.rs 55-59: is_columbus_day *)
Definition is_columbus_day (f : fields) : bool :=
  within 8 14 (f_day f) && (f_weekday f =? Mon) && (f_month f =? 10) && (1971 <=? f_year f).

(** unitedstates.rs 61-69: is_veterans_day_no_saturday *)
Definition is_veterans_day_no_saturday (f : fields) : bool :=
  let y := f_year f in let m := f_month f in let d := f_day f in let w := f_weekday f in
  if (y <=? 1970) || (1978 <=? y) then ((d =? 11) || ((d =? 12) && (w =? Mon))) && (m =? 11)
  else within 22 28 d && (w =? Mon) && (m =? 10).

(** unitedstates.rs 71-79: is_juneteenth *)
Definition is_juneteenth (f : fields) (move_to_friday : bool) : bool :=
  let y := f_year f in let m := f_month f in let d := f_day f in let w := f_weekday f in
  ((d =? 19) || ((d =? 20) && (w =? Mon)) || (((d =? 18) && (w =? Fri)) && move_to_friday))
  && ((m =? 6) && (2022 <=? y)).

(** unitedstates.rs 81-110: goverment_bond_holiday *)
Definition goverment_bond_holiday (f : fields) : bool :=
  let y := f_year f in let m := f_month f in let d := f_day f in let w := f_weekday f in
  if (((d =? 1) || ((d =? 2) && (w =? Mon))) && (m =? 1))
     || (within 15 21 d && (w =? Mon) && (m =? 1) && (1983 <=? y))
     || is_washington_birthday f
     || (is_good_friday f false && negb ((y =? 2015) || (y =? 2021) || (y =? 2023)))
     || is_memorial_day f
     || is_juneteenth f true
     || (((d =? 4) || ((d =? 5) && (w =? Mon)) || ((d =? 3) && (w =? Fri))) && (m =? 7))
     || is_labor_day f
     || is_columbus_day f
     || is_veterans_day_no_saturday f
     || (within 22 28 d && (w =? Thu) && (m =? 11))
     || (((d =? 25) || ((d =? 26) && (w =? Mon)) || ((d =? 24) && (w =? Fri))) && (m =? 12))
  then true
  else if ((y =? 2018) && (m =? 12) && (d =? 5))
     || ((y =? 2012) && (m =? 10) && (d =? 30))
     || ((y =? 2004) && (m =? 6) && (d =? 11))
  then true else false.

(** unitedstates.rs 119-227: is_holiday *)
Definition us_is_holiday (ty : us_type) (f : fields) : bool :=
  let y := f_year f in let m := f_month f in let d := f_day f in let w := f_weekday f in
  let dd := f_ordinal f in
  match ty with
  | UsSettlement =>
      (((d =? 1) || ((d =? 2) && (w =? Mon))) && (m =? 1))
      || ((d =? 31) && (w =? Fri) && (m =? 12))
      || (within 15 21 d && (w =? Mon) && (m =? 1) && (1983 <=? y))
      || is_washington_birthday f
      || is_memorial_day f
      || is_juneteenth f true
      || (((d =? 4) || ((d =? 5) && (w =? Mon)) || ((d =? 3) && (w =? Fri))) && (m =? 7))
      || is_labor_day f
      || is_columbus_day f
      || is_veterans_day_no_saturday f
      || (within 22 28 d && (w =? Thu) && (m =? 11))
      || (((d =? 25) || ((d =? 26) && (w =? Mon)) || ((d =? 24) && (w =? Fri))) && (m =? 12))
  | UsNyse =>
      if (((d =? 1) || ((d =? 2) && (w =? Mon))) && (m =? 1))
         || is_washington_birthday f
         || is_good_friday f false
         || is_memorial_day f
         || is_juneteenth f true
         || (((d =? 4) || ((d =? 5) && (w =? Mon)) || ((d =? 3) && (w =? Fri))) && (m =? 7))
         || is_labor_day f
         || (within 22 28 d && (w =? Thu) && (m =? 11))
         || (((d =? 25) || ((d =? 26) && (w =? Mon)) || ((d =? 24) && (w =? Fri))) && (m =? 12))
      then true
      else if ((1998 <=? y) && within 15 21 d && (w =? Mon) && (m =? 1))
         || (((y <=? 1968) || ((y <=? 1980) && (Z.rem y 4 =? 0))) && (m =? 11) && (d <=? 7) && (w =? Tue))
      then true
      else if ((y =? 2018) && (m =? 12) && (d =? 5))
         || ((y =? 2012) && (m =? 10) && ((d =? 29) || (d =? 30)))
         || ((y =? 2007) && (m =? 1) && (d =? 2))
         || ((y =? 2004) && (m =? 6) && (d =? 11))
         || ((y =? 2001) && (m =? 9) && within 11 14 d)
         || ((y =? 1994) && (m =? 4) && (d =? 27))
         || ((y =? 1985) && (m =? 9) && (d =? 27))
         || ((y =? 1977) && (m =? 7) && (d =? 14))
         || ((y =? 1973) && (m =? 1) && (d =? 25))
         || ((y =? 1972) && (m =? 12) && (d =? 28))
         || ((y =? 1969) && (m =? 7) && (d =? 21))
         || ((y =? 1969) && (m =? 3) && (d =? 31))
         || ((y =? 1969) && (m =? 2) && (d =? 10))
         || ((y =? 1968) && (m =? 7) && (d =? 5))
         || ((y =? 1968) && (163 <=? dd) && (w =? Wed))
         || ((y =? 1968) && (m =? 4) && (d =? 9))
         || ((y =? 1963) && (m =? 11) && (d =? 25))
         || ((y =? 1961) && (m =? 5) && (d =? 29))
         || ((y =? 1958) && (m =? 12) && (d =? 26))
         || (((y =? 1954) || (y =? 1956) || (y =? 1965)) && (m =? 12) && (d =? 24))
      then true else false
  | UsGovernmentBond => goverment_bond_holiday f
  | UsSofr => if is_good_friday f false then true else goverment_bond_holiday f
  | UsFederalReserve =>
      (((d =? 1) || ((d =? 2) && (w =? Mon))) && (m =? 1))
      || (within 15 21 d && (w =? Mon) && (m =? 1) && (1983 <=? y))
      || is_washington_birthday f
      || is_memorial_day f
      || is_juneteenth f false
      || (((d =? 4) || ((d =? 5) && (w =? Mon))) && (m =? 7))
      || is_labor_day f
      || is_columbus_day f
      || is_veterans_day_no_saturday f
      || (within 22 28 d && (w =? Thu) && (m =? 11))
      || (((d =? 25) || ((d =? 26) && (w =? Mon))) && (m =? 12))
  end.

(** ** South Korea *)

(** southkorea.rs 10-13 *)
Inductive kr_type := KrKrx | KrSettlement.

(** southkorea.rs 16-36: is_lunar_new_year (the table's days of the year are
    valid ones and not January 1st or December 31st, so the [unwrap] and the
    sums do not panic) *)
Definition is_lunar_new_year (f : fields) : bool :=
  let y := f_year f in
  if (2050 <? y) || (y <? 1901) then false
  else let l := year_start y + nth (Z.to_nat (y - 1901)) korean_lunar_newyears 0 - 1 in
       (l =? f_date f) || (l + 1 =? f_date f) || (l - 1 =? f_date f).

(** [matches!((year, month, day), ...)] *)
Definition date_in (l : list (Z * Z * Z)) (f : fields) : bool :=
  existsb (fun e => match e with (y, m, d) =>
    if y =? f_year f then (m =? f_month f) && (d =? f_day f) else false end) l.

(** southkorea.rs 38-46: is_labour_day *)
Definition is_labour_day (f : fields) : bool := (f_month f =? 5) && (f_day f =? 1).
(** southkorea.rs 48-162: is_buddha_birthday *)
Definition is_buddha_birthday (f : fields) : bool :=
  if negb (within 1951 2050 (f_year f)) then false else date_in buddha_days f.
(** southkorea.rs 164-477: is_chuseok *)
Definition is_chuseok (f : fields) : bool :=
  if negb (within 1951 2050 (f_year f)) then false else date_in chuseok_days f.
(** southkorea.rs 481-648: is_last_business_day_of_year *)
Definition is_last_business_day_of_year (f : fields) : bool :=
  if negb (within 1951 2050 (f_year f)) then false else date_in year_last_days f.
(** southkorea.rs 650-666: is_temporary_holiday *)
Definition is_temporary_holiday (f : fields) : bool :=
  date_in [(2023, 1, 24); (2023, 5, 1); (2023, 5, 29); (2023, 10, 2); (2024, 2, 12); (2024, 5, 6)] f.

(** southkorea.rs 667-694: is_holiday *)
Definition kr_is_holiday (ty : kr_type) (f : fields) : bool :=
  let m := f_month f in let d := f_day f in
  if is_lunar_new_year f || is_buddha_birthday f || is_chuseok f || is_labour_day f
     || ((m =? 1) && (d =? 1)) || ((m =? 3) && (d =? 1)) || ((m =? 5) && (d =? 5)) || ((m =? 6) && (d =? 6))
     || ((m =? 8) && (d =? 15)) || ((m =? 10) && (d =? 3)) || ((m =? 10) && (d =? 9)) || ((m =? 12) && (d =? 25))
  then true
  else if is_temporary_holiday f then true
  else match ty with KrKrx => is_last_business_day_of_year f | KrSettlement => false end.

(** ** Calendars *)

(** calendar.rs 9-13, nullcalendar.rs 7-9, southkorea.rs 697-703,
    unitedstates.rs 230-236 (names left out; the offset is fixed by the kind;
    the lists are holiday_adder and holiday_remover) *)
Inductive calendar :=
| NullCalendar
| SouthKorea (ty : kr_type) (adder remover : list Z)
| UnitedStates (ty : us_type) (adder remover : list Z).

(** southkorea.rs 706-719, unitedstates.rs 239-253, nullcalendar.rs 19-23: new *)
Definition new_south_korea (ty : kr_type) : calendar := SouthKorea ty [] [].
Definition new_united_states (ty : us_type) : calendar := UnitedStates ty [] [].

(** southkorea.rs 713 (+9 h), unitedstates.rs 242 (-5 h); the null calendar
    looks at the date in its own offset (nullcalendar.rs 26-32) *)
Definition cal_offset (c : calendar) (d : odt) : Z :=
  match c with NullCalendar => od_off d | SouthKorea _ _ _ => 32400 | UnitedStates _ _ _ => -18000 end.

(** southkorea.rs 737-749, unitedstates.rs 271-283, nullcalendar.rs 34-44 *)
Definition is_removed_holiday (c : calendar) (n : Z) : bool :=
  match c with NullCalendar => false | SouthKorea _ _ r | UnitedStates _ _ r => existsb (Z.eqb n) r end.
Definition is_added_holiday (c : calendar) (n : Z) : bool :=
  match c with NullCalendar => false | SouthKorea _ a _ | UnitedStates _ a _ => existsb (Z.eqb n) a end.
Definition is_base_holiday (c : calendar) (f : fields) : bool :=
  match c with NullCalendar => false | SouthKorea ty _ _ => kr_is_holiday ty f | UnitedStates ty _ _ => us_is_holiday ty f end.

(** southkorea.rs 727-735, unitedstates.rs 261-269, nullcalendar.rs 50-56 *)
Definition add_holidays (c : calendar) (n : Z) : calendar :=
  match c with
  | NullCalendar => NullCalendar
  | SouthKorea ty a r => SouthKorea ty (a ++ [n]) r
  | UnitedStates ty a r => UnitedStates ty (a ++ [n]) r
  end.
Definition remove_holidays (c : calendar) (n : Z) : calendar :=
  match c with
  | NullCalendar => NullCalendar
  | SouthKorea ty a r => SouthKorea ty a (r ++ [n])
  | UnitedStates ty a r => UnitedStates ty a (r ++ [n])
  end.

(** calendar_trait.rs 65-85: _is_holiday, on the local date in the calendar's offset *)
Definition holiday_on (c : calendar) (n : Z) : bool :=
  let f := unpack n in
  if weekend f then true
  else if is_removed_holiday c n then false
  else if is_base_holiday c f then true
  else if is_added_holiday c n then true
  else false.

(** southkorea.rs 751-759, unitedstates.rs 285-294, nullcalendar.rs 26-32:
    is_holiday, is_weekend *)
Definition cal_is_holiday (c : calendar) (d : odt) : outcome bool :=
  match c with
  | NullCalendar => Ret (holiday_on c (od_day d))
  | _ => let! d' := to_offset (cal_offset c d) d in Ret (holiday_on c (od_day d'))
  end.
Definition cal_is_weekend (c : calendar) (d : odt) : outcome bool :=
  match c with
  | NullCalendar => Ret (weekend (unpack (od_day d)))
  | _ => let! d' := to_offset (cal_offset c d) d in Ret (weekend (unpack (od_day d')))
  end.

(** jointcalendar.rs 9-33: JointCalendar::new (the name is left out) *)
Definition new_joint (cs : list calendar) : rresult (list calendar) :=
  match cs with [] => RErr | _ => ROk cs end.

(** jointcalendar.rs 101-103 and 58-60: is_holiday, is_weekend
    ([any] stops at the first true) *)
Fixpoint any_outcome {A} (f : A -> outcome bool) (l : list A) : outcome bool :=
  match l with
  | [] => Ret false
  | x :: l' => let! b := f x in if b then Ret true else any_outcome f l'
  end.
Definition joint_is_holiday (cs : list calendar) (d : odt) : outcome bool :=
  any_outcome (fun c => cal_is_holiday c d) cs.
(** jointcalendar.rs 39-41: is_business_day ([all] stops at the first false) *)
Fixpoint all_outcome {A} (f : A -> outcome bool) (l : list A) : outcome bool :=
  match l with
  | [] => Ret true
  | x :: l' => let! b := f x in if b then all_outcome f l' else Ret false
  end.
Definition joint_is_business_day (cs : list calendar) (d : odt) : outcome bool :=
  all_outcome (fun c => let! h := cal_is_holiday c d in Ret (negb h)) cs.

(** Any value with the trait's methods: what the default methods need of it. *)
Inductive any_calendar := One (c : calendar) | Joint (cs : list calendar).
Definition is_holiday (a : any_calendar) (d : odt) : outcome bool :=
  match a with One c => cal_is_holiday c d | Joint cs => joint_is_holiday cs d end.
(** calendar_trait.rs 56-58: is_business_day *)
Definition is_business_day (a : any_calendar) (d : odt) : outcome bool :=
  let! h := is_holiday a d in Ret (negb h).

(** ** Adjustment (calendar_trait.rs) *)

(** one turn of the loops of lines 90-92, 99-101, 110-112, 127-129 *)
Definition adjust_turn (a : any_calendar) (step : Z) (d : odt) : turn odt odt :=
  turn_bind (is_holiday a d) (fun h =>
    if h then turn_bind (add_days d step) (fun d' => Next d') else Stop (Ret d)).

(** calendar_trait.rs 87-94: adjust_following *)
Definition adjust_following (a : any_calendar) (d : odt) : outcome odt := while_loop (adjust_turn a 1) d.
(** calendar_trait.rs 96-103: adjust_preceding *)
Definition adjust_preceding (a : any_calendar) (d : odt) : outcome odt := while_loop (adjust_turn a (-1)) d.

(** calendar_trait.rs 105-120: adjust_modified_following *)
Definition adjust_modified_following (a : any_calendar) (d : odt) : outcome odt :=
  let! r := while_loop (adjust_turn a 1) d in
  if negb (date_month (od_day d) =? date_month (od_day r)) then adjust_preceding a d else Ret r.

(** calendar_trait.rs 122-137: adjust_modified_preceding *)
Definition adjust_modified_preceding (a : any_calendar) (d : odt) : outcome odt :=
  let! r := while_loop (adjust_turn a (-1)) d in
  if negb (date_month (od_day d) =? date_month (od_day r)) then adjust_following a d else Ret r.

(** conventions.rs 6-14 *)
Inductive convention := Unadjusted | Following | ModifiedFollowing | Preceding | ModifiedPreceding | DummyConvention.

(** calendar_trait.rs 139-154: adjust *)
Definition adjust (a : any_calendar) (d : odt) (cv : convention) : outcome (rresult odt) :=
  match cv with
  | Unadjusted => Ret (ROk d)
  | Following => let! r := adjust_following a d in Ret (ROk r)
  | Preceding => let! r := adjust_preceding a d in Ret (ROk r)
  | ModifiedPreceding => let! r := adjust_modified_preceding a d in Ret (ROk r)
  | ModifiedFollowing => let! r := adjust_modified_following a d in Ret (ROk r)
  | DummyConvention => Ret RErr
  end.

(** calendar_trait.rs 279-281: is_leap_year (Rust's [%] truncates) *)
Definition is_leap_year (y : Z) : bool :=
  ((Z.rem y 4 =? 0) && negb (Z.rem y 100 =? 0)) || (Z.rem y 400 =? 0).

(** calendar_trait.rs 256-277: last_day_of_month *)
Definition last_day_of_month (y m : Z) : outcome Z :=
  if (m =? 1) || (m =? 3) || (m =? 5) || (m =? 7) || (m =? 8) || (m =? 10) || (m =? 12)
  then from_calendar_date y m 31
  else if (m =? 4) || (m =? 6) || (m =? 9) || (m =? 11) then from_calendar_date y m 30
  else if is_leap_year y then from_calendar_date y m 29 else from_calendar_date y m 28.

(** ** Listing holidays *)

(** [is_weekend] of any of the calendars; jointcalendar.rs 58-60 *)
Definition is_weekend (a : any_calendar) (d : odt) : outcome bool :=
  match a with One c => cal_is_weekend c d | Joint cs => any_outcome (fun c => cal_is_weekend c d) cs end.

(** one turn of the loop of calendar_trait.rs 43-48 (jointcalendar.rs 69-74);
    the state holds the dates printed so far *)
Definition display_turn (a : any_calendar) (upto : odt) (include_weekend : bool) (st : odt * list odt)
  : turn (odt * list odt) (list odt) :=
  let (d, out) := st in
  if instant d <=? instant upto then
    turn_bind (is_holiday a d) (fun h =>
    turn_bind (if h then (if include_weekend then Ret true else let! w := is_weekend a d in Ret (negb w))
               else Ret false) (fun p =>
    turn_bind (add_days d 1) (fun d' => Next (d', if p then out ++ [d] else out))))
  else Stop (Ret out).

(** calendar_trait.rs 36-49: _display_holidays (the result is what is printed;
    lines printed before a panic are left out) *)
Definition display_loop (a : any_calendar) (from upto : odt) (include_weekend : bool) : outcome (list odt) :=
  while_loop (display_turn a upto include_weekend) (from, []).

(** nullcalendar.rs 58-65, southkorea.rs 761-771, unitedstates.rs 296-306,
    jointcalendar.rs 62-75: display_holidays *)
Definition display_holidays (a : any_calendar) (from upto : odt) (include_weekend : bool) : outcome (list odt) :=
  match a with
  | Joint _ | One NullCalendar => display_loop a from upto include_weekend
  | One c =>
      let! f := to_offset (cal_offset c from) from in
      let! u := to_offset (cal_offset c upto) upto in
      display_loop a f u include_weekend
  end.
