(** QPeriodModel.v -- period strings of quantlib
    (quantlib/src/utils/string_arithmetic.rs, quantlib/src/time/conventions.rs).

    Strings are ASCII.  (Rust's [\d] also matches other decimal digits, which
    [parse] then refuses by a panic; such strings are not modelled.) *)
From Coq Require Import ZArith List Bool Ascii String.
From Verif Require Import Base CivilSpec QDateModel QCalModel.
Import ListNotations.
Open Scope Z_scope.

Inductive punit := UY | UM | UW | UD | Uh | Umin | Usec.

(** the alternatives of the second group, in the order tried:
    string_arithmetic.rs 11, 91, 169 (all) and 247, 299 (the first four) *)
Definition all_units : list (punit * list ascii) :=
  [(UY, ["Y"]); (UM, ["M"]); (UW, ["W"]); (UD, ["D"]); (Uh, ["h"]); (Umin, ["m"; "i"; "n"]); (Usec, ["s"; "e"; "c"])]%char.
Definition date_units : list (punit * list ascii) :=
  [(UY, ["Y"]); (UM, ["M"]); (UW, ["W"]); (UD, ["D"])]%char.

Definition is_digit (c : ascii) : bool := let n := nat_of_ascii c in (Nat.leb 48 n && Nat.leb n 57)%nat.
Definition digit_value (c : ascii) : Z := Z.of_nat (nat_of_ascii c) - 48.

(** [\d+], greedy *)
Fixpoint take_digits (s : list ascii) : list ascii * list ascii :=
  match s with
  | c :: s' => if is_digit c then let (ds, r) := take_digits s' in (c :: ds, r) else ([], s)
  | [] => ([], [])
  end.

(** is [p] a prefix; the rest *)
Fixpoint strip (p s : list ascii) : option (list ascii) :=
  match p, s with
  | [], _ => Some s
  | a :: p', b :: s' => if Ascii.eqb a b then strip p' s' else None
  | _ :: _, [] => None
  end.
(** one of the alternatives *)
Fixpoint take_unit (us : list (punit * list ascii)) (s : list ascii) : option (punit * list ascii) :=
  match us with
  | [] => None
  | (u, name) :: us' => match strip name s with Some r => Some (u, r) | None => take_unit us' s end
  end.
(** [( ... )+], greedy: the group holds the last repetition *)
Fixpoint take_units (fuel : nat) (us : list (punit * list ascii)) (u : punit) (s : list ascii) : punit * list ascii :=
  match fuel with
  | O => (u, s)
  | S n => match take_unit us s with Some (u', r) => take_units n us u' r | None => (u, s) end
  end.

(** [Regex::captures_iter] for [(\d+)(...)+]: the matches from left to right
    without overlap.  A run of digits not followed by a unit has no match
    inside (a shorter match of [\d+] is followed by a digit). *)
Fixpoint captures_from (fuel : nat) (us : list (punit * list ascii)) (s : list ascii) : list (list ascii * punit) :=
  match fuel with
  | O => []
  | S n =>
      match s with
      | [] => []
      | c :: s' =>
          if is_digit c then
            let (ds, r) := take_digits s in
            match take_unit us r with
            | Some (u, r') => let (u', r'') := take_units (List.length r') us u r' in (ds, u') :: captures_from n us r''
            | None => captures_from n us r
            end
          else captures_from n us s'
      end
  end.
Definition captures (us : list (punit * list ascii)) (s : list ascii) : list (list ascii * punit) :=
  captures_from (List.length s) us s.

(** the number a string of digits stands for *)
Definition number (ds : list ascii) : Z := fold_left (fun a c => 10 * a + digit_value c) ds 0.
(** [parse::<i64>().unwrap()] and [parse::<i32>().unwrap()] *)
Definition parse_i64 (ds : list ascii) : outcome Z := if number ds <=? 9223372036854775807 then Ret (number ds) else Panic.
Definition parse_i32 (ds : list ascii) : outcome Z := if number ds <=? 2147483647 then Ret (number ds) else Panic.
(** [value as i32] *)
Definition as_i32 (v : Z) : Z := (v + 2147483648) mod 4294967296 - 2147483648.

(** string_arithmetic.rs 48-64: from_i32_to_month (a month is 1..12 in the model) *)
Definition from_i32_to_month (i : Z) : outcome Z := if (0 <=? i) && (i <=? 11) then Ret (i + 1) else Panic.
(** string_arithmetic.rs 66-81: from_month_to_i32 *)
Definition from_month_to_i32 (m : Z) : Z := m - 1.

(** string_arithmetic.rs 103-118 and its copies: the day, or the month's last
    one, in another month *)
Definition in_month_of (day year month : Z) : outcome Z :=
  let! last := last_day_of_month year month in
  let eom := date_day last in
  from_calendar_date year month (if eom <? day then eom else day).

(** string_arithmetic.rs 103-104, 121-124: add years and months.
    A sum that overflows i32 panics or wraps to a year outside -9999..=9999,
    for which [last_day_of_month] panics: [Panic] in both builds. *)
Definition add_years_date (n v : Z) : outcome Z := in_month_of (date_day n) (date_year n + v) (date_month n).
Definition add_months_date (n v : Z) : outcome Z :=
  let k := from_month_to_i32 (date_month n) + v in
  let! m := from_i32_to_month (Z.rem k 12) in
  in_month_of (date_day n) (date_year n + Z.quot k 12) m.
(** string_arithmetic.rs 178-179, 199-202: subtract years and months *)
Definition sub_years_date (n v : Z) : outcome Z := in_month_of (date_day n) (date_year n - v) (date_month n).
Definition sub_months_date (n v : Z) : outcome Z :=
  let k := from_month_to_i32 (date_month n) - v in
  let! m := from_i32_to_month (Z.rem (k + 120000000) 12) in
  in_month_of (date_day n) (date_year n - 1 + Z.quot (k + 12) 12) m.

(** [datetime += Duration] on the local clock; a Duration too long for its
    type panics, as does a date out of range *)
Definition add_ns (d : odt) (ns : Z) : outcome odt :=
  let t := od_day d * day_ns + od_ns d + ns in
  if in_range (t / day_ns) then Ret (Odt (t / day_ns) (t mod day_ns) (od_off d)) else Panic.
Definition unit_ns (u : punit) : Z :=
  match u with
  | UW => 7 * day_ns | UD => day_ns | Uh => 3600000000000 | Umin => 60000000000 | Usec => 1000000000
  | UY | UM => 0
  end.

(** string_arithmetic.rs 98-145: one capture of add_period; years and months
    take the time of day of the original date, [t0] *)
Definition add_one (t0 : Z) (d : odt) (v : Z) (u : punit) : outcome odt :=
  match u with
  | UY => let! n := add_years_date (od_day d) (as_i32 v) in Ret (Odt n t0 (od_off d))
  | UM => let! n := add_months_date (od_day d) (as_i32 v) in Ret (Odt n t0 (od_off d))
  | _ => add_ns d (v * unit_ns u)
  end.
(** string_arithmetic.rs 173-221: one capture of sub_period *)
Definition sub_one (t0 : Z) (d : odt) (v : Z) (u : punit) : outcome odt :=
  match u with
  | UY => let! n := sub_years_date (od_day d) (as_i32 v) in Ret (Odt n t0 (od_off d))
  | UM => let! n := sub_months_date (od_day d) (as_i32 v) in Ret (Odt n t0 (od_off d))
  | _ => add_ns d (- (v * unit_ns u))
  end.

Fixpoint each_capture {T} (parse : list ascii -> outcome Z) (f : T -> Z -> punit -> outcome T) (cs : list (list ascii * punit)) (d : T)
  : outcome T :=
  match cs with
  | [] => Ret d
  | (ds, u) :: cs' => let! v := parse ds in let! d' := f d v u in each_capture parse f cs' d'
  end.

(** string_arithmetic.rs 90-147: add_period (the original is taken apart with
    [time()] and [offset()]) *)
Definition add_period (d : odt) (s : list ascii) : outcome odt :=
  match captures all_units s with
  | [] => Panic
  | cs => each_capture parse_i64 (add_one (od_ns d)) cs d
  end.
(** string_arithmetic.rs 161-224: sub_period *)
Definition sub_period (d : odt) (s : list ascii) : outcome odt :=
  match captures all_units s with
  | [] => Panic
  | cs => each_capture parse_i64 (sub_one (od_ns d)) cs d
  end.

(** string_arithmetic.rs 227-278, 281-332: add_period_date, sub_period_date
    (i32 values: no cast) *)
Definition add_one_date (n v : Z) (u : punit) : outcome Z :=
  match u with
  | UY => add_years_date n v | UM => add_months_date n v
  | UW => date_add n (7 * v) | UD => date_add n v | _ => Panic
  end.
Definition sub_one_date (n v : Z) (u : punit) : outcome Z :=
  match u with
  | UY => sub_years_date n v | UM => sub_months_date n v
  | UW => date_add n (- (7 * v)) | UD => date_add n (- v) | _ => Panic
  end.
Definition add_period_date (n : Z) (s : list ascii) : outcome Z :=
  match captures date_units s with [] => Panic | cs => each_capture parse_i32 add_one_date cs n end.
Definition sub_period_date (n : Z) (s : list ascii) : outcome Z :=
  match captures date_units s with [] => Panic | cs => each_capture parse_i32 sub_one_date cs n end.

(** ** Payment frequencies *)

(** conventions.rs 28-41 *)
Inductive frequency := Daily | Weekly | BiWeekly | SemiMonthly | Monthly | SemiQuarterly | Quarterly | TriAnnually
  | SemiAnnually | Annually | NoFrequency.
(** conventions.rs 48-62: as_str *)
Definition as_str (f : frequency) : list ascii :=
  match f with
  | Daily => ["1"; "D"] | Weekly => ["1"; "W"] | BiWeekly => ["2"; "W"] | SemiMonthly => ["2"; "W"] | Monthly => ["1"; "M"]
  | SemiQuarterly => ["2"; "M"] | Quarterly => ["3"; "M"] | TriAnnually => ["4"; "M"] | SemiAnnually => ["6"; "M"]
  | Annually => ["1"; "Y"] | NoFrequency => ["N"; "o"; "n"; "e"]
  end%char.
(** [n.to_string()] for a number that is not negative *)
Definition digit_char (d : Z) : ascii := ascii_of_nat (Z.to_nat (48 + d)).
Fixpoint digits_of (fuel : nat) (n : Z) (acc : list ascii) : list ascii :=
  match fuel with
  | O => acc
  | S k => if n <? 10 then digit_char n :: acc else digits_of k (n / 10) (digit_char (n mod 10) :: acc)
  end.
Definition z_to_string (n : Z) : list ascii := digits_of (Z.to_nat (Z.log2 n) + 1) n [].
(** conventions.rs 64-74: to_string_with_multiple, for multiples of at least 0
    ([parse] refuses the "Non" of "None"; the product of i32 is taken modulo
    2^32 or panics) *)
Definition to_string_with_multiple (m : build) (f : frequency) (multiple : Z) : outcome (list ascii) :=
  let s := as_str f in
  let head := removelast s in
  let tail := last s "X"%char in
  if forallb is_digit head then
    let! h := parse_i32 head in
    let p := h * multiple in
    if p <=? 2147483647 then Ret (z_to_string p ++ [tail])%list
    else match m with
         | Checked => Panic
         | Wrapping => let q := as_i32 p in Ret ((if q <? 0 then "-"%char :: z_to_string (- q) else z_to_string q) ++ [tail])%list
         end
  else Panic.
