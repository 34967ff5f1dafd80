(** QCalSpec.v -- vocabulary for the statements about calendars, without
    reference to the code's rules: weekdays, n-th weekdays of a month, observed
    days, Easter by the published algorithms, business days through the API. *)
From Coq Require Import ZArith List Bool.
From Verif Require Import Base CivilSpec QDateModel QCalTables QCalModel.
Import ListNotations.
Open Scope Z_scope.

(** ** Weekdays and months (a day is its day number; 1970-01-01, day 0, was a Thursday) *)
Definition Monday : Z := 0. Definition Tuesday : Z := 1. Definition Wednesday : Z := 2. Definition Thursday : Z := 3.
Definition Friday : Z := 4. Definition Saturday : Z := 5. Definition Sunday : Z := 6.
Definition weekday (n : Z) : Z := (n + 3) mod 7.
Definition weekend_day (n : Z) : Prop := weekday n = Saturday \/ weekday n = Sunday.

(** day [n] lies in month [m] of year [y] *)
Definition in_month (y m n : Z) : Prop := day_number y m 1 <= n <= day_number y m (month_days y m).
Definition in_the_year (y n : Z) : Prop := day_number y 1 1 <= n <= day_number y 12 31.

(** [n] is the [k]-th weekday [w] of the month *)
Definition nth_weekday (k w y m n : Z) : Prop :=
  weekday n = w /\ in_month y m n /\ in_month y m (n - 7 * (k - 1)) /\ ~ in_month y m (n - 7 * k).
(** [n] is the last weekday [w] of the month *)
Definition last_weekday (w y m n : Z) : Prop :=
  weekday n = w /\ in_month y m n /\ ~ in_month y m (n + 7).

(** the weekday on which a day is observed: Friday for a Saturday, Monday for a Sunday *)
Definition observed (n : Z) : Z :=
  if weekday n =? Saturday then n - 1 else if weekday n =? Sunday then n + 1 else n.
(** Monday for a Sunday; a Saturday is not moved *)
Definition observed_monday (n : Z) : Z := if weekday n =? Sunday then n + 1 else n.

(** ** United States, by year *)
Definition washington_birthday (y n : Z) : Prop :=
  if y <? 1971 then n = observed (day_number y 2 22) else nth_weekday 3 Monday y 2 n.
Definition memorial_day (y n : Z) : Prop :=
  if y <? 1971 then n = observed (day_number y 5 30) else last_weekday Monday y 5 n.
Definition columbus_day (y n : Z) : Prop := y >= 1971 /\ nth_weekday 2 Monday y 10 n.
Definition veterans_day (y n : Z) : Prop :=
  if (1971 <=? y) && (y <=? 1977) then nth_weekday 4 Monday y 10 n else n = observed_monday (day_number y 11 11).
Definition thanksgiving (y n : Z) : Prop := nth_weekday 4 Thursday y 11 n.
Definition labor_day (y n : Z) : Prop := nth_weekday 1 Monday y 9 n.
Definition king_day (from y n : Z) : Prop := y >= from /\ nth_weekday 3 Monday y 1 n.

(** the settlement calendar's holidays of year [y] *)
Definition settlement_holiday (y n : Z) : Prop :=
  n = observed (day_number y 1 1) \/ king_day 1983 y n \/ washington_birthday y n \/ memorial_day y n \/
  (y >= 2022 /\ n = observed (day_number y 6 19)) \/ n = observed (day_number y 7 4) \/ labor_day y n \/
  columbus_day y n \/ veterans_day y n \/ thanksgiving y n \/ n = observed (day_number y 12 25).

(** the Federal Reserve's: the same days, but a Saturday is only moved in the
    years before 1971, and then only Washington's birthday and Memorial day *)
Definition federal_reserve_holiday (y n : Z) : Prop :=
  n = observed_monday (day_number y 1 1) \/ king_day 1983 y n \/ washington_birthday y n \/ memorial_day y n \/
  (y >= 2022 /\ n = observed_monday (day_number y 6 19)) \/ n = observed_monday (day_number y 7 4) \/ labor_day y n \/
  columbus_day y n \/ veterans_day y n \/ thanksgiving y n \/ n = observed_monday (day_number y 12 25).

(** ** Easter *)

(** Western Easter Sunday: the anonymous Gregorian algorithm (Meeus, Jones, Butcher) *)
Definition western_easter (y : Z) : Z :=
  let a := y mod 19 in
  let b := y / 100 in let c := y mod 100 in
  let d := b / 4 in let e := b mod 4 in
  let f := (b + 8) / 25 in
  let g := (b - f + 1) / 3 in
  let h := (19 * a + b - d - g + 15) mod 30 in
  let i := c / 4 in let k := c mod 4 in
  let l := (32 + 2 * e + 2 * i - h - k) mod 7 in
  let m := (a + 11 * h + 22 * l) / 451 in
  let z := h + l - 7 * m + 114 in
  day_number y (z / 31) (z mod 31 + 1).

(** Orthodox Easter Sunday: Meeus's Julian algorithm, the Julian date turned
    into a Gregorian one (the Julian calendar is y/100 - y/400 - 2 days behind) *)
Definition orthodox_easter (y : Z) : Z :=
  let a := y mod 4 in let b := y mod 7 in let c := y mod 19 in
  let d := (19 * c + 15) mod 30 in
  let e := (2 * a + 4 * b - d + 34) mod 7 in
  let z := d + e + 114 in
  day_number y (z / 31) (z mod 31 + 1) + (y / 100 - y / 400 - 2).

Example easter_2024 : western_easter 2024 = day_number 2024 3 31 /\ orthodox_easter 2024 = day_number 2024 5 5.
Proof. split; reflexivity. Qed.

(** Election day: the Tuesday after the first Monday of November *)
Definition election_day (y n : Z) : Prop := nth_weekday 1 Monday y 11 (n - 1).
(** the first Tuesday of November *)
Definition first_tuesday (y n : Z) : Prop := nth_weekday 1 Tuesday y 11 n.

(** *** Markets: parameters [easter] (which Easter Sunday) and [election] (which
    Tuesday), since the code departs from the published days in both *)

(** a day listed by its date *)
Definition listed (l : list (Z * Z * Z)) (n : Z) : Prop :=
  exists y m d, In (y, m, d) l /\ n = day_number y m d.

(** Good Friday of the years 1901..2199 *)
Definition good_friday (easter : Z -> Z) (y n : Z) : Prop := 1901 <= y <= 2199 /\ n = easter y - 2.

(** Closings of the New York Stock Exchange: state funerals, storms, 11
    September, moon landing, blackout, and the Wednesdays of the paper crisis *)
Definition nyse_closings : list (Z * Z * Z) :=
  [(2018, 12, 5); (2012, 10, 29); (2012, 10, 30); (2007, 1, 2); (2004, 6, 11);
   (2001, 9, 11); (2001, 9, 12); (2001, 9, 13); (2001, 9, 14); (1994, 4, 27); (1985, 9, 27); (1977, 7, 14);
   (1973, 1, 25); (1972, 12, 28); (1969, 7, 21); (1969, 3, 31); (1969, 2, 10); (1968, 7, 5); (1968, 4, 9);
   (1963, 11, 25); (1961, 5, 29); (1958, 12, 26); (1954, 12, 24); (1956, 12, 24); (1965, 12, 24)].
Definition paper_crisis (n : Z) : Prop :=
  day_number 1968 6 12 <= n <= day_number 1968 12 31 /\ weekday n = Wednesday.

Definition nyse_holiday (easter : Z -> Z) (election : Z -> Z -> Prop) (y n : Z) : Prop :=
  n = observed_monday (day_number y 1 1) \/ king_day 1998 y n \/ washington_birthday y n \/ good_friday easter y n \/
  memorial_day y n \/ (y >= 2022 /\ n = observed (day_number y 6 19)) \/ n = observed (day_number y 7 4) \/ labor_day y n \/
  thanksgiving y n \/ n = observed (day_number y 12 25) \/
  ((y <= 1968 \/ (y <= 1980 /\ y mod 4 = 0)) /\ election y n).

(** the bond market *)
Definition bond_closings : list (Z * Z * Z) := [(2018, 12, 5); (2012, 10, 30); (2004, 6, 11)].
Definition bond_regular_holiday (y n : Z) : Prop :=
  n = observed_monday (day_number y 1 1) \/ king_day 1983 y n \/ washington_birthday y n \/
  memorial_day y n \/ (y >= 2022 /\ n = observed (day_number y 6 19)) \/ n = observed (day_number y 7 4) \/ labor_day y n \/
  columbus_day y n \/ veterans_day y n \/ thanksgiving y n \/ n = observed (day_number y 12 25).
(** trades on Good Friday in 2015, 2021 and 2023; the SOFR calendar never does *)
Definition bond_holiday (easter : Z -> Z) (y n : Z) : Prop :=
  bond_regular_holiday y n \/ (good_friday easter y n /\ y <> 2015 /\ y <> 2021 /\ y <> 2023).
Definition sofr_holiday (easter : Z -> Z) (y n : Z) : Prop :=
  bond_regular_holiday y n \/ good_friday easter y n.

(** ** South Korea *)

(** every year: New Year, 1 March, Labour day, Children's day, Memorial day,
    Liberation day, Foundation day, Hangul day, Christmas *)
Definition korean_fixed : list (Z * Z) :=
  [(1, 1); (3, 1); (5, 1); (5, 5); (6, 6); (8, 15); (10, 3); (10, 9); (12, 25)].
Definition korean_temporary : list (Z * Z * Z) :=
  [(2023, 1, 24); (2023, 5, 1); (2023, 5, 29); (2023, 10, 2); (2024, 2, 12); (2024, 5, 6)].
Definition fixed_day (l : list (Z * Z)) (n : Z) : Prop := exists y m d, In (m, d) l /\ n = day_number y m d.

(** the tables of the source, by year: Lunar New Year (1901..2050), the day
    before and after it are holidays too; Buddha's birthday and Chuseok
    (1951..2050) are dates *)
Definition lunar_new_year (y : Z) : Z := year_start y + nth (Z.to_nat (y - 1901)) korean_lunar_newyears 0 - 1.
Definition korean_holiday (n : Z) : Prop :=
  fixed_day korean_fixed n \/ listed korean_temporary n \/
  (exists y, 1901 <= y <= 2050 /\ lunar_new_year y - 1 <= n <= lunar_new_year y + 1) \/
  listed buddha_days n \/ listed chuseok_days n.

(** the last weekday (Monday to Friday) of the year *)
Definition last_weekday_of_year (y n : Z) : Prop :=
  in_the_year y n /\ ~ weekend_day n /\ forall k, in_the_year y k -> ~ weekend_day k -> k <= n.

(** [a] days are [k] mean lunar months of 29.53 days, to within two days *)
Definition lunations (k a : Z) : Prop := -200 <= 100 * a - 2953 * k <= 200.

(** ** Dates with a time of day and an offset *)

(** [d] moved by [k] days: same clock time, same offset. *)
Definition later (d : odt) (k : Z) : odt := Odt (od_day d + k) (od_ns d) (od_off d).

(** midnight of a local date at an offset of [h] hours *)
Definition midnight (y m dd h : Z) : odt := Odt (day_number y m dd) 0 (3600 * h).

(** a value the [time] crate can hold *)
Definition odt_ok (d : odt) : Prop :=
  in_range (od_day d) = true /\ 0 <= od_ns d < day_ns /\ -93599 <= od_off d <= 93599.

(** the local date, [hours] east of Greenwich, of the point in time of [d] *)
Definition date_at (hours : Z) (d : odt) : Z := (instant d + hours * 3600000000000) / day_ns.

(** business days and holidays, as the API answers *)
Definition is_open (a : any_calendar) (d : odt) : Prop := is_business_day a d = Ret true.
Definition is_closed (a : any_calendar) (d : odt) : Prop := is_business_day a d = Ret false.

(** the two dates lie in the same month of the same year (each in its own offset) *)
Definition same_month (d e : odt) : Prop := exists y m, 1 <= m <= 12 /\ in_month y m (od_day d) /\ in_month y m (od_day e).

(** number of holidays added by hand *)
Definition added (c : calendar) : list Z :=
  match c with NullCalendar => [] | SouthKorea _ l _ | UnitedStates _ l _ => l end.
Definition all_added (a : any_calendar) : list Z :=
  match a with One c => added c | Joint cs => flat_map added cs end.

(** 7 days for one calendar, 14 for several together; as many more for each
    holiday added by hand *)
Definition span (a : any_calendar) : Z :=
  match a with
  | One _ => 7 * (Z.of_nat (length (all_added a)) + 1)
  | Joint _ => 14 * (Z.of_nat (length (all_added a)) + 1)
  end.

(** a history of calls on a calendar *)
Inductive edit := AddHoliday (n : Z) | RemoveHoliday (n : Z).
Definition apply_edit (c : calendar) (e : edit) : calendar :=
  match e with AddHoliday n => add_holidays c n | RemoveHoliday n => remove_holidays c n end.
Definition apply_edits (c : calendar) (es : list edit) : calendar := fold_left apply_edit es c.
