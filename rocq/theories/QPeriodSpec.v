(** QPeriodSpec.v -- vocabulary for the statements about period strings:
    how a period is written, the date some months later or earlier. *)
From Coq Require Import ZArith List Bool Ascii String.
From Verif Require Import Base CivilSpec QDateModel QPeriodModel.
Import ListNotations.
Open Scope Z_scope.

(** ** Writing a period *)
Definition unit_name (u : punit) : list ascii :=
  match u with
  | UY => ["Y"] | UM => ["M"] | UW => ["W"] | UD => ["D"] | Uh => ["h"] | Umin => ["m"; "i"; "n"] | Usec => ["s"; "e"; "c"]
  end%char.
(** one or more decimal digits *)
Definition numeral (ds : list ascii) : Prop :=
  ds <> [] /\ Forall (fun c => (48 <= nat_of_ascii c <= 57)%nat) ds.
(** the number written: the first digit is the most significant *)
Fixpoint value_of (ds : list ascii) : Z :=
  match ds with
  | [] => 0
  | c :: rest => (Z.of_nat (nat_of_ascii c) - 48) * 10 ^ Z.of_nat (List.length rest) + value_of rest
  end.
(** "1Y6M": numerals followed by their units *)
Definition written (p : list (list ascii * punit)) : list ascii :=
  List.concat (map (fun x => fst x ++ unit_name (snd x)) p).
Definition well_formed (p : list (list ascii * punit)) : Prop := Forall (fun x => numeral (fst x)) p.
(** somewhere in the text a digit is followed by a unit *)
Definition has_period (s : list ascii) : Prop :=
  exists pre c u post, (48 <= nat_of_ascii c <= 57)%nat /\ s = pre ++ c :: unit_name u ++ post.
Definition str (s : string) : list ascii := list_ascii_of_string s.

(** ** Months later *)

(** [n'] is the date [k] months after the date y-m-d ([k] may be negative): the
    same day of the month, or the month's last day if it has no such day *)
Definition months_after (y m d k n' : Z) : Prop :=
  exists y' m', 1 <= m' <= 12 /\ 12 * y' + m' = 12 * y + m + k /\
    n' = day_number y' m' (Z.min d (month_days y' m')).
(** the year of the month [k] months after y-m *)
Definition year_after (y m k : Z) : Z := (12 * y + (m - 1) + k) / 12.
Definition representable_year (y : Z) : Prop := -9999 <= y <= 9999.

(** nanoseconds in a unit that has a fixed length *)
Definition length_of (u : punit) : option Z :=
  match u with
  | UW => Some (7 * 24 * 3600 * 1000000000) | UD => Some (24 * 3600 * 1000000000)
  | Uh => Some (3600 * 1000000000) | Umin => Some (60 * 1000000000) | Usec => Some 1000000000
  | UY | UM => None
  end.
(** the months in a unit that is counted in months *)
Definition months_of (u : punit) : option Z := match u with UY => Some 12 | UM => Some 1 | _ => None end.

(** a date and time within the range of the time crate, built from a calendar date *)
Definition civil (y m d ns off : Z) : odt := Odt (day_number y m d) ns off.
Definition civil_ok (y m d ns : Z) : Prop := representable_year y /\ valid_date y m d /\ 0 <= ns < day_ns.
